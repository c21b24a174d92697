(** C79: planes fitted to projection centers (PCs). *)
From Coq Require Import List Arith ZArith Reals Lra Lia Psatz Permutation ClassicalEpsilon.
From Verif Require Import Model.Detector Model.Rotations Model.PlaneFit.
From Verif Require Import Proofs.DetectorTilt Proofs.PlaneFitProofs Proofs.SmallestDirection Proofs.HomographyProofs Proofs.ProjectiveFitProofs.
From Verif Require Import Spec.PlaneSpec.
Import ListNotations.
Local Open Scope R_scope.

(** ** The assumptions about numpy and skimage can be met *)

Theorem C79_svd_exists : exists svd, is_svd svd.
Proof. exact svd_exists. Qed.
Theorem C79_estimate_exists : exists estimate, is_estimate estimate.
Proof.
  exists (fun src dst => epsilon (inhabits (Mat (Vec 0 0 0) (Vec 0 0 0) (Vec 0 0 0))) (fun t => Forall2 (sends t) src dst)).
  intros src dst t _ _ _ H.
  apply (epsilon_spec (inhabits (Mat (Vec 0 0 0) (Vec 0 0 0) (Vec 0 0 0))) (fun t => Forall2 (sends t) src dst)).
  exists t. exact H.
Qed.

(** ** estimate_xtilt_ztilt *)

(** For PCs in a plane, and either fewer than ten of them or placed symmetrically, the two tilts turn the
    detector normal to the normal of the plane which points to the detector. *)
Theorem C79_tilts_of_a_plane_partial : forall svd n l,
  is_svd svd -> in_plane n l -> spread l -> (length l < 10)%nat \/ symmetric l -> 0 < vz n ->
  exists x z, estimate_xtilt_ztilt svd false NoMask l = Some (x, z) /\
    estimate_xtilt_ztilt svd true NoMask l = Some (x * 180 / PI, z * 180 / PI) /\
    tilted_normal x z = n.
Proof.
  intros svd n l HS HP HR HB HZ.
  assert (L : (3 <= length l)%nat) by (apply spread_length; exact HR).
  assert (NE : l <> []) by (intros ->; cbn in L; lia).
  assert (T : dot n (trim_mean3 (centered (map vec_of l))) = 0) by (rewrite (balanced_trim l NE HB); unfold dot; cbn; ring).
  destruct (hyperplane_facts svd n l HS HP HR T) as (N & h & EN & Pz & EF & _ & _ & TN & _).
  assert (Q : N = n) by (destruct EN as [E|E]; [exact E|]; rewrite E in Pz; cbn in Pz; lra).
  exists (h_xtilt h), (h_ztilt h). unfold estimate_xtilt_ztilt.
  replace (length l =? 1)%nat with false by (symmetry; apply Nat.eqb_neq; lia).
  cbn [used_pcs]. rewrite EF. split; [reflexivity|]. split; [|rewrite TN; exact Q].
  unfold rad2deg. f_equal. f_equal; unfold Rdiv; ring.
Qed.
Print Assumptions C79_tilts_of_a_plane_partial.

Definition tilted_square : list pc3 := [PC 0 0 1; PC 1 0 1; PC 0 1 0; PC 1 1 0].
Example C79_case_plane : in_plane (Vec 0 (/ sqrt 2) (/ sqrt 2)) tilted_square /\ spread tilted_square /\
  (length tilted_square < 10)%nat /\ 0 < vz (Vec 0 (/ sqrt 2) (/ sqrt 2)).
Proof.
  assert (S : sqrt 2 * sqrt 2 = 2) by (apply sqrt_sqrt; lra).
  assert (P : 0 < sqrt 2) by (apply sqrt_lt_R0; lra).
  split; [|split; [|split]].
  - split.
    + unfold unit_length, dot. cbn. replace (/ sqrt 2 * / sqrt 2) with (/ (sqrt 2 * sqrt 2)) by (field; lra). rewrite S. lra.
    + exists (/ sqrt 2). intros p [<-|[<-|[<-|[<-|[]]]]]; unfold dot; cbn; ring.
  - exists (PC 0 0 1), (PC 1 0 1), (PC 0 1 0). repeat split; [cbn; auto..|].
    unfold cross, minus. cbn. intro E. injection E. lra.
  - cbn. lia.
  - cbn. apply Rinv_0_lt_compat. exact P.
Qed.

(** A mask given as an array selects the PCs. *)
Theorem C79_tilts_of_inliers : forall svd degrees m l,
  length m = length l -> length l <> 1%nat -> length (inliers m l) <> 1%nat ->
  estimate_xtilt_ztilt svd degrees (ArrayMask m) l = estimate_xtilt_ztilt svd degrees NoMask (inliers m l).
Proof.
  intros svd degrees m l E H1 H2. unfold estimate_xtilt_ztilt.
  replace (length l =? 1)%nat with false by (symmetry; apply Nat.eqb_neq; assumption).
  replace (length (inliers m l) =? 1)%nat with false by (symmetry; apply Nat.eqb_neq; assumption).
  cbn [used_pcs]. replace (select (map negb m) l) with (inliers m l); [reflexivity|].
  clear. unfold inliers. revert l. induction m as [|b m IH]; intros [|x l]; cbn; try reflexivity.
  destruct b; cbn; rewrite IH; reflexivity.
Qed.

(** A mask given as a list, which the documentation allows, is ignored: here the plane of the PCs which are not
    masked is z = 0, with the tilts (0, z). *)
Definition corner : list pc3 := [PC 0 0 0; PC 1 0 0; PC 0 1 0; PC 0 0 1].
Definition last_is_outlier : list bool := [false; false; false; true].

Lemma corner_direction : forall v, smallest_singular (trimmed (centered (map vec_of corner))) v -> v <> Vec 0 0 1 /\ v <> Vec 0 0 (-1).
Proof.
  intros v (Hv & Hm).
  assert (T : trim_mean3 (centered (map vec_of corner)) = Vec 0 0 0) by (apply trim_centered_few; cbn; lia).
  assert (E : forall w, square_sum (trimmed (centered (map vec_of corner))) w =
     vx w * vx w + vy w * vy w + vz w * vz w - (vx w + vy w + vz w) * (vx w + vy w + vz w) / 4).
  { intro w. unfold trimmed. rewrite T. unfold square_sum, centered, mean3, meanR, sumR, dot, vsub. cbn. field. }
  set (u := Vec (/ sqrt 3) (/ sqrt 3) (/ sqrt 3)).
  assert (S : sqrt 3 * sqrt 3 = 3) by (apply sqrt_sqrt; lra). assert (P : 0 < sqrt 3) by (apply sqrt_lt_R0; lra).
  assert (Q : / sqrt 3 * / sqrt 3 = / 3) by (rewrite <- Rinv_mult, S; reflexivity).
  assert (U : unit_length u) by (unfold unit_length, dot, u; cbn; lra).
  specialize (Hm u U). rewrite !E in Hm. unfold u in Hm. cbn in Hm.
  replace ((/ sqrt 3 + / sqrt 3 + / sqrt 3) * (/ sqrt 3 + / sqrt 3 + / sqrt 3)) with (9 * (/ sqrt 3 * / sqrt 3)) in Hm by ring.
  rewrite Q in Hm. split; intros ->; cbn in Hm; lra.
Qed.

Theorem C79_mask_as_a_list_refuted :
  (forall svd degrees m l, estimate_xtilt_ztilt svd degrees (ListMask m) l = estimate_xtilt_ztilt svd degrees NoMask l) /\
  forall svd, is_svd svd -> exists x z x' z',
    estimate_xtilt_ztilt svd false (ArrayMask last_is_outlier) corner = Some (x, z) /\ tilted_normal x z = Vec 0 0 1 /\
    estimate_xtilt_ztilt svd false (ListMask last_is_outlier) corner = Some (x', z') /\ tilted_normal x' z' <> Vec 0 0 1.
Proof.
  split; [reflexivity|]. intros svd HS.
  assert (IP : in_plane (Vec 0 0 1) (inliers last_is_outlier corner)).
  { split; [unfold unit_length, dot; cbn; ring|]. exists 0. intros p [<-|[<-|[<-|[]]]]; unfold dot; cbn; ring. }
  assert (SP : spread (inliers last_is_outlier corner)).
  { exists (PC 0 0 0), (PC 1 0 0), (PC 0 1 0). repeat split; [cbn; auto..|]. unfold cross, minus. cbn. intro E. injection E. lra. }
  destruct (C79_tilts_of_a_plane_partial svd (Vec 0 0 1) _ HS IP SP) as (x & z & E & _ & T); [left; cbn; lia|cbn; lra|].
  rewrite <- C79_tilts_of_inliers in E by (cbn; lia || reflexivity).
  exists x, z.
  set (v := svd (trimmed (centered (map vec_of corner)))).
  assert (HV : smallest_singular (trimmed (centered (map vec_of corner))) v) by (apply HS; cbn; lia).
  destruct (corner_direction v HV) as [N1 N2].
  set (N := sample_normal v).
  exists (acos (vz N)), (PI / 2 - atan2 (vy N) (vx N)). split; [exact E|]. split; [exact T|]. split; [reflexivity|].
  assert (EN : N = if Rlt_dec (vz v) 0 then vneg v else v) by (apply sample_normal_unit; exact (proj1 HV)).
  rewrite tilted_normal_inverse by (rewrite EN; destruct (Rlt_dec (vz v) 0); [apply unit_neg|]; exact (proj1 HV)).
  rewrite EN. destruct (Rlt_dec (vz v) 0); [|exact N1].
  intro C. apply N2. rewrite <- (neg_neg v), C. unfold vneg. cbn. f_equal; ring.
Qed.

(** With ten or more PCs, some of the smallest and largest values of each coordinate are left out of the mean
    on its own, and the resulting point is in general not in the plane: then the plane found is another one. *)
Definition skew : list pc3 := PC 10 0 (-10) :: PC 0 10 (-10) :: repeat (PC 0 0 0) 8.

Lemma rle_true : forall x y (A : Type) (a b : A), x <= y -> (if Rle_dec x y then a else b) = a.
Proof. intros. destruct (Rle_dec x y); [reflexivity|contradiction]. Qed.
Lemma rle_false : forall x y (A : Type) (a b : A), y < x -> (if Rle_dec x y then a else b) = b.
Proof. intros. destruct (Rle_dec x y); [lra|reflexivity]. Qed.

Lemma skew_mean : mean3 (map vec_of skew) = Vec 1 1 (-2).
Proof. unfold mean3, meanR, sumR, skew. cbn. f_equal; field. Qed.
Lemma skew_centered : centered (map vec_of skew) = Vec 9 (-1) (-8) :: Vec (-1) 9 (-8) :: repeat (Vec (-1) (-1) 2) 8.
Proof. unfold centered. rewrite skew_mean. unfold skew, vsub. cbn. repeat (f_equal; try ring). Qed.
Lemma skew_trim : trim_mean3 (centered (map vec_of skew)) = Vec (-1) (-1) (3/4).
Proof.
  rewrite skew_centered. unfold trim_mean3, trim_mean. cbn [map vx vy vz repeat length].
  change (10 / 10)%nat with 1%nat. cbn [Nat.sub].
  f_equal.
  - unfold sort. cbn [insert]. repeat (cbn [insert]; first [rewrite rle_true by lra|rewrite rle_false by lra]).
    cbn. unfold meanR, sumR. cbn. field.
  - unfold sort. cbn [insert]. repeat (cbn [insert]; first [rewrite rle_true by lra|rewrite rle_false by lra]).
    cbn. unfold meanR, sumR. cbn. field.
  - unfold sort. cbn [insert]. repeat (cbn [insert]; first [rewrite rle_true by lra|rewrite rle_false by lra]).
    cbn. unfold meanR, sumR. cbn. field.
Qed.

Theorem C79_ten_pcs_refuted : exists n l,
  in_plane n l /\ spread l /\ 0 < vz n /\ length l = 10%nat /\
  forall svd, is_svd svd -> exists x z,
    estimate_xtilt_ztilt svd false NoMask l = Some (x, z) /\ tilted_normal x z <> n.
Proof.
  set (k := / sqrt 3). exists (Vec k k k), skew.
  assert (S : sqrt 3 * sqrt 3 = 3) by (apply sqrt_sqrt; lra). assert (P : 0 < sqrt 3) by (apply sqrt_lt_R0; lra).
  assert (Q : k * k = / 3) by (unfold k; rewrite <- Rinv_mult, S; reflexivity).
  assert (K : 0 < k) by (apply Rinv_0_lt_compat; exact P).
  split; [|split; [|split; [exact K|split; [reflexivity|]]]].
  - split; [unfold unit_length, dot; cbn; lra|]. exists 0. intros p [<-|[<-|Hp]]; [unfold dot; cbn; ring..|].
    apply repeat_spec in Hp. subst. unfold dot. cbn. ring.
  - exists (PC 10 0 (-10)), (PC 0 10 (-10)), (PC 0 0 0). repeat split; [cbn; auto..|].
    unfold cross, minus. cbn. intro E. injection E. lra.
  - intros svd HS. set (v := svd (trimmed (centered (map vec_of skew)))).
    assert (HV : smallest_singular (trimmed (centered (map vec_of skew))) v) by (apply HS; cbn; lia).
    set (N := sample_normal v).
    exists (acos (vz N)), (PI / 2 - atan2 (vy N) (vx N)). split; [reflexivity|].
    assert (EN : N = if Rlt_dec (vz v) 0 then vneg v else v) by (apply sample_normal_unit; exact (proj1 HV)).
    rewrite tilted_normal_inverse by (rewrite EN; destruct (Rlt_dec (vz v) 0); [apply unit_neg|]; exact (proj1 HV)).
    assert (F : forall w, square_sum (trimmed (centered (map vec_of skew))) w =
       100 * (vx w * vx w) + 100 * (vy w * vy w) + (1325 / 8) * (vz w * vz w) - 175 * (vx w * vz w) - 175 * (vy w * vz w)).
    { intro w. unfold trimmed. rewrite skew_trim, skew_centered. unfold square_sum, dot, vsub. cbn. field. }
    intro C.
    assert (V : v = Vec k k k \/ v = Vec (- k) (- k) (- k)).
    { rewrite EN in C. destruct (Rlt_dec (vz v) 0); [right|left]; [|exact C].
      rewrite <- (neg_neg v), C. reflexivity. }
    set (s := / sqrt 1241).
    assert (S' : sqrt 1241 * sqrt 1241 = 1241) by (apply sqrt_sqrt; lra).
    assert (P' : 0 < sqrt 1241) by (apply sqrt_lt_R0; lra).
    assert (Q' : s * s = / 1241) by (unfold s; rewrite <- Rinv_mult, S'; reflexivity).
    destruct HV as (_ & Hm).
    assert (U : unit_length (Vec (20 * s) (20 * s) (21 * s))) by (unfold unit_length, dot; cbn; nra).
    specialize (Hm _ U). rewrite !F in Hm. cbn in Hm.
    replace (100 * (20 * s * (20 * s)) + 100 * (20 * s * (20 * s)) + (1325 / 8) * (21 * s * (21 * s)) - 175 * (20 * s * (21 * s)) - 175 * (20 * s * (21 * s)))
      with ((48325 / 8) * (s * s)) in Hm by field. rewrite Q' in Hm.
    destruct V as [-> | ->]; cbn in Hm; [|replace (- k * - k) with (k * k) in Hm by ring]; rewrite Q in Hm; lra.
Qed.
Print Assumptions C79_ten_pcs_refuted.

(** Two PCs are more than one, as required, but there is an error. *)
Theorem C79_two_pcs_refuted : forall svd degrees p q, estimate_xtilt_ztilt svd degrees NoMask [p; q] = None.
Proof. reflexivity. Qed.

(** ** The two estimates of the tilt about the detector X axis *)

Definition on_slope (s c : R) (l : list pc3) : Prop := forall p, In p l -> pcy p = s * pcz p + c.

Lemma x_tilt_on_slope : forall s c l, on_slope s c l -> (exists p q, In p l /\ In q l /\ pcz p <> pcz q) ->
  x_tilt l = PI / 2 + atan s.
Proof.
  intros s c l H (p & q & Hp & Hq & Hne). unfold x_tilt, slope. do 2 f_equal.
  rewrite (map_ext_in pcy (fun x => s * pcz x + c)) by exact H.
  rewrite cov_affine by (intros ->; contradiction).
  assert (cov (map pcz l) (map pcz l) <> 0).
  { apply (cov_pos _ (pcz p) (pcz q)); auto; apply in_map; assumption. }
  field. assumption.
Qed.

Lemma slope_plane : forall s c l, on_slope s c l -> in_plane (Vec 0 (/ sqrt (1 + s²)) (- s / sqrt (1 + s²))) l.
Proof.
  intros s c l H. assert (P : 0 < 1 + s²) by (pose proof (Rle_0_sqr s); lra).
  assert (Q : 0 < sqrt (1 + s²)) by (apply sqrt_lt_R0; exact P).
  assert (S : sqrt (1 + s²) * sqrt (1 + s²) = 1 + s²) by (apply sqrt_sqrt; lra).
  split.
  - unfold unit_length, dot. cbn.
    transitivity ((1 + s * s) / (sqrt (1 + s²) * sqrt (1 + s²))); [field; lra|]. rewrite S. unfold Rsqr in *. field. lra.
  - exists (c / sqrt (1 + s²)). intros p Hp. unfold dot. cbn. rewrite (H p Hp). field. lra.
Qed.

Theorem C79_estimates_agree_partial : forall svd s c l,
  is_svd svd -> on_slope s c l -> spread l -> (length l < 10)%nat \/ symmetric l ->
  (exists p q, In p l /\ In q l /\ pcz p <> pcz q) -> s < 0 ->
  exists x, estimate_xtilt false l = Some x /\ estimate_xtilt_ztilt svd false NoMask l = Some (x, 0).
Proof.
  intros svd s c l HS H HR HB HZ Hs.
  assert (L : (3 <= length l)%nat) by (apply spread_length; exact HR).
  assert (NE : l <> []) by (intros ->; cbn in L; lia).
  pose proof (slope_plane s c l H) as HP.
  assert (P : 0 < 1 + s²) by (pose proof (Rle_0_sqr s); lra).
  assert (Q : 0 < sqrt (1 + s²)) by (apply sqrt_lt_R0; exact P).
  set (n := Vec 0 (/ sqrt (1 + s²)) (- s / sqrt (1 + s²))) in *.
  assert (T : dot n (trim_mean3 (centered (map vec_of l))) = 0) by (rewrite (balanced_trim l NE HB); unfold dot; cbn; ring).
  destruct (hyperplane_facts svd n l HS HP HR T) as (N & h & EN & Pz & EF & EX & EZ & _).
  assert (Z : 0 < vz n) by (cbn; apply Rdiv_lt_0_compat; lra).
  assert (EQ : N = n) by (destruct EN as [E|E]; [exact E|]; rewrite E in Pz; cbn in Pz, Z; lra). rewrite EQ in EX, EZ.
  exists (x_tilt l). unfold estimate_xtilt, estimate_xtilt_ztilt.
  replace (length l =? 1)%nat with false by (symmetry; apply Nat.eqb_neq; lia).
  cbn [used_pcs]. rewrite EF. split; [reflexivity|]. do 2 f_equal.
  - rewrite EX, (x_tilt_on_slope s c l H HZ). unfold n. cbn [vz].
    replace (- s / sqrt (1 + s²)) with (cos (PI / 2 + atan s)).
    + apply acos_cos. pose proof (atan_bound s). lra.
    + rewrite cos_plus, cos_PI2, sin_PI2, sin_atan. field. lra.
  - rewrite EZ. unfold n, atan2. cbn [vx vy]. destruct (Rlt_dec 0 0); [lra|].
    destruct (Rlt_dec 0 (/ sqrt (1 + s²))) as [|F]; [ring|]. exfalso. apply F, Rinv_0_lt_compat, Q.
Qed.

(** When PCy increases with PCz, the first estimate is more than 90 degrees and the second one less, with a tilt
    of 180 degrees about the Z axis: they are normals of the same plane which point away from each other. *)
Theorem C79_estimates_agree_refuted : forall svd s c l,
  is_svd svd -> on_slope s c l -> spread l -> (length l < 10)%nat \/ symmetric l ->
  (exists p q, In p l /\ In q l /\ pcz p <> pcz q) -> 0 < s ->
  exists x, estimate_xtilt false l = Some x /\ PI / 2 < x /\ estimate_xtilt_ztilt svd false NoMask l = Some (PI - x, PI).
Proof.
  intros svd s c l HS H HR HB HZ Hs.
  assert (L : (3 <= length l)%nat) by (apply spread_length; exact HR).
  assert (NE : l <> []) by (intros ->; cbn in L; lia).
  pose proof (slope_plane s c l H) as HP.
  assert (P : 0 < 1 + s²) by (pose proof (Rle_0_sqr s); lra).
  assert (Q : 0 < sqrt (1 + s²)) by (apply sqrt_lt_R0; exact P).
  set (n := Vec 0 (/ sqrt (1 + s²)) (- s / sqrt (1 + s²))) in *.
  assert (T : dot n (trim_mean3 (centered (map vec_of l))) = 0) by (rewrite (balanced_trim l NE HB); unfold dot; cbn; ring).
  destruct (hyperplane_facts svd n l HS HP HR T) as (N & h & EN & Pz & EF & EX & EZ & _).
  assert (Z : vz n < 0).
  { assert (0 < s / sqrt (1 + s²)) by (apply Rdiv_lt_0_compat; lra).
    unfold n. cbn. replace (- s / sqrt (1 + s²)) with (- (s / sqrt (1 + s²))) by (field; lra). lra. }
  assert (EQ : N = vneg n) by (destruct EN as [E|E]; [|exact E]; rewrite E in Pz; lra). rewrite EQ in EX, EZ.
  exists (x_tilt l). unfold estimate_xtilt, estimate_xtilt_ztilt.
  replace (length l =? 1)%nat with false by (symmetry; apply Nat.eqb_neq; lia).
  cbn [used_pcs]. rewrite EF. split; [reflexivity|]. split.
  { rewrite (x_tilt_on_slope s c l H HZ). pose proof (atan_increasing 0 s Hs) as A. rewrite atan_0 in A. lra. }
  do 2 f_equal.
  - rewrite EX, (x_tilt_on_slope s c l H HZ). unfold n, vneg. cbn [vz].
    replace (- (- s / sqrt (1 + s²))) with (cos (PI - (PI / 2 + atan s))).
    + apply acos_cos. pose proof (atan_bound s). lra.
    + replace (PI - (PI / 2 + atan s)) with (PI / 2 - atan s) by field. rewrite cos_shift, sin_atan. field. lra.
  - rewrite EZ. unfold n, vneg, atan2. cbn [vx vy]. destruct (Rlt_dec 0 (- 0)); [lra|]. destruct (Rlt_dec (- 0) 0); [lra|].
    assert (I : 0 < / sqrt (1 + s²)) by (apply Rinv_0_lt_compat, Q).
    destruct (Rlt_dec 0 (- / sqrt (1 + s²))); [lra|]. destruct (Rlt_dec (- / sqrt (1 + s²)) 0); [field|lra].
Qed.
Example C79_case_slope : on_slope (-1) 1 tilted_square /\ exists p q, In p tilted_square /\ In q tilted_square /\ pcz p <> pcz q.
Proof.
  split; [intros p [<-|[<-|[<-|[<-|[]]]]]; cbn; ring|].
  exists (PC 0 0 1), (PC 0 1 0). repeat split; [cbn; auto..|cbn; lra].
Qed.
Definition rising_square : list pc3 := [PC 0 0 0; PC 1 0 0; PC 0 1 1; PC 1 1 1].
Example C79_case_rising : on_slope 1 0 rising_square /\ spread rising_square /\ exists p q, In p rising_square /\ In q rising_square /\ pcz p <> pcz q.
Proof.
  split; [intros p [<-|[<-|[<-|[<-|[]]]]]; cbn; ring|]. split.
  - exists (PC 0 0 0), (PC 1 0 0), (PC 0 1 1). repeat split; [cbn; auto..|]. unfold cross, minus. cbn. intro E. injection E. lra.
  - exists (PC 0 0 0), (PC 0 1 1). repeat split; [cbn; auto..|cbn; lra].
Qed.

(** ** fit_pc with the projective transformation *)

(** PCs which are the image of their map positions under a projective transformation into a plane are fitted
    exactly, and the PCs of all other map positions are their images. *)
Theorem C79_projective_fit_is_exact_partial : forall svd estimate d idx map_idx map_pcs t o u w,
  is_svd svd -> is_estimate estimate ->
  det3 t <> 0 -> cross u w <> Vec 0 0 0 -> quadrangle idx ->
  (length (pcs (d_pc d)) < 10)%nat \/ symmetric (pcs (d_pc d)) ->
  Forall2 (image_of t o u w) idx (pcs (d_pc d)) -> Forall2 (image_of t o u w) map_idx map_pcs ->
  ~ (forall p q, In p (pcs (d_pc d)) -> In q (pcs (d_pc d)) -> pcz p = pcz q) ->
  fit_pc svd estimate d idx map_idx None = Some (map_pcs, fitted_sample_tilt d (pcs (d_pc d))).
Proof.
  intros svd estimate d idx map_idx map_pcs t o u w HS HE D C HQ HB F FM HZ. unfold fit_pc.
  pose proof (image_spread t o u w idx _ D C HQ F) as HR. apply spread_length in HR.
  replace (length (pcs (d_pc d)) =? 1)%nat with false by (symmetry; apply Nat.eqb_neq; lia).
  assert (length idx = length (pcs (d_pc d))) as -> by (clear - F; induction F; cbn; congruence).
  rewrite Nat.eqb_refl. cbn [negb].
  rewrite (projective_fit_exact svd estimate _ idx map_idx map_pcs t o u w HS HE D C HQ HB F FM HZ). reflexivity.
Qed.
Print Assumptions C79_projective_fit_is_exact_partial.

(** Outliers have no effect. *)
Theorem C79_outliers_are_left_out : forall svd estimate d m idx map_idx,
  length m = length (pcs (d_pc d)) -> length idx = length (pcs (d_pc d)) ->
  length (pcs (d_pc d)) <> 1%nat -> length (inliers m (pcs (d_pc d))) <> 1%nat ->
  fit_pc svd estimate d idx map_idx (Some m) =
  fit_pc svd estimate (Det (d_ny d) (d_nx d) (d_px_size d) (d_binning d) (d_tilt d) (d_azimuthal d) (d_twist d) (d_sample_tilt d)
    (PCArray [length (inliers m (pcs (d_pc d)))] (inliers m (pcs (d_pc d))))) (inliers m idx) map_idx None.
Proof.
  intros svd estimate d m idx map_idx E1 E2 N1 N2. unfold fit_pc. cbn [d_pc pcs].
  replace (length (pcs (d_pc d)) =? 1)%nat with false by (symmetry; apply Nat.eqb_neq; assumption).
  replace (length (inliers m (pcs (d_pc d))) =? 1)%nat with false by (symmetry; apply Nat.eqb_neq; assumption).
  assert (S : forall A (l : list A), select (map negb m) l = inliers m l).
  { intros A l. clear. unfold inliers. revert l. induction m as [|b m IH]; intros [|x l]; cbn; try reflexivity.
    destruct b; cbn; rewrite IH; reflexivity. }
  assert (LI : length (inliers m idx) = length (inliers m (pcs (d_pc d)))).
  { clear - E2. unfold inliers. rewrite !map_length. revert E2. generalize (pcs (d_pc d)) as l. revert idx.
    induction m as [|b m IH]; intros [|i idx] [|p l] E; cbn in *; try reflexivity; try discriminate.
    destruct b; cbn; rewrite (IH idx l); congruence. }
  rewrite E1, E2, LI, !Nat.eqb_refl. cbn [negb].
  unfold fit_plane_to_pc. cbn iota beta. rewrite !S.
  match goal with |- match ?x with _ => _ end = match ?x with _ => _ end => destruct x as [[[fit fm] xt]|]; [|reflexivity] end.
  reflexivity.
Qed.

(** ** PCs extrapolated to a map *)

Definition positions (ny nx : nat) : list (R * R) :=
  flat_map (fun y => map (fun x => (INR y, INR x)) (seq 0 nx)) (seq 0 ny).

Lemma rev_flat_map : forall {A B} (f : A -> list B) l, rev (flat_map f l) = flat_map (fun x => rev (f x)) (rev l).
Proof.
  induction l as [|a l IH]; [reflexivity|]. cbn. rewrite rev_app_distr, IH, flat_map_app. cbn. rewrite app_nil_r. reflexivity.
Qed.
Lemma rev_seq0 : forall n, rev (seq 0 n) = map (fun i => n - 1 - i)%nat (seq 0 n).
Proof.
  intro n. apply (nth_ext _ _ 0%nat (n - 1 - 0)%nat).
  - rewrite rev_length, map_length. reflexivity.
  - intros i Hi. rewrite rev_length, seq_length in Hi.
    rewrite rev_nth by (rewrite seq_length; exact Hi). rewrite seq_length, seq_nth by lia.
    rewrite map_nth, seq_nth by exact Hi. lia.
Qed.
Lemma positions_reflected : forall ny nx,
  Permutation (map (fun yx => (INR ny - 1 - fst yx, INR nx - 1 - snd yx)) (positions ny nx)) (positions ny nx).
Proof.
  intros ny nx. assert (map (fun yx => (INR ny - 1 - fst yx, INR nx - 1 - snd yx)) (positions ny nx) = rev (positions ny nx)) as ->;
    [|apply Permutation_sym, Permutation_rev].
  unfold positions. rewrite rev_flat_map, rev_seq0. rewrite !flat_map_concat_map, concat_map, !map_map. f_equal.
  apply map_ext_in. intros y Hy. rewrite <- map_rev, rev_seq0, !map_map. apply map_ext_in. intros x Hx. cbn [fst snd].
  apply in_seq in Hy. apply in_seq in Hx.
  assert (G : forall n i, (i < n)%nat -> INR n - 1 - INR i = INR (n - 1 - i)).
  { intros n i Hi. rewrite !minus_INR by lia. cbn. ring. }
  rewrite !G by lia. reflexivity.
Qed.

Section Extrapolated.
Context (d : detector) (rows cols px b dy dx : R) (ybar xbar : Z) (mean : pc3).
Let alpha := deg2rad (90 - d_sample_tilt d + d_tilt d).
Let P (yx : R * R) : pc3 := extrapolated_pc d rows cols px b dy dx ybar xbar mean (fst yx) (snd yx).
Let o := point (P (0, 0)).
Let u := minus (point (P (1, 0))) o.
Let w := minus (point (P (0, 1))) o.
Let identity := Mat (Vec 1 0 0) (Vec 0 1 0) (Vec 0 0 1).

Lemma extrapolated_image : forall i, image_of identity o u w i (P i).
Proof.
  intros [y x]. exists (y, x). split.
  - unfold sends, identity, dot. cbn. repeat split; lra.
  - unfold u, w, o, P, extrapolated_pc, point, minus, plus, scaled. cbn. unfold Rdiv. f_equal; ring.
Qed.
Lemma extrapolated_span : dx <> 0 -> dy <> 0 -> px * b * rows <> 0 -> px * b * cols <> 0 -> cross u w <> Vec 0 0 0.
Proof.
  intros Hx Hy Hr Hc.
  assert (U : u = Vec 0 (- (dy * cos alpha / (px * b * rows))) (dy * sin alpha / (px * b * rows))).
  { unfold u, o, P, extrapolated_pc, point, minus. cbn. fold alpha. unfold Rdiv. f_equal; ring. }
  assert (W : w = Vec (- (dx / (px * b * cols))) 0 0).
  { unfold w, o, P, extrapolated_pc, point, minus. cbn. fold alpha. unfold Rdiv. f_equal; ring. }
  rewrite U, W. unfold cross. cbn. intro E. injection E as E1 E2 E3.
  assert (A : dx / (px * b * cols) <> 0) by (unfold Rdiv; apply Rmult_integral_contrapositive; split; [assumption|apply Rinv_neq_0_compat; assumption]).
  assert (B : dy / (px * b * rows) <> 0) by (unfold Rdiv; apply Rmult_integral_contrapositive; split; [assumption|apply Rinv_neq_0_compat; assumption]).
  pose proof (sin2_cos2 alpha) as SC. unfold Rsqr in SC.
  set (g := dx / (px * b * cols)) in *. unfold Rdiv in *. set (k := / (px * b * rows)) in *.
  assert (S0 : sin alpha = 0).
  { apply Rmult_eq_reg_l with (dy * k * g); [|apply Rmult_integral_contrapositive; split; assumption]. lra. }
  assert (C0 : cos alpha = 0).
  { apply Rmult_eq_reg_l with (dy * k * g); [|apply Rmult_integral_contrapositive; split; assumption]. lra. }
  rewrite S0, C0 in SC. lra.
Qed.
Lemma extrapolated_symmetric : forall ny nx, symmetric (map P (positions ny nx)).
Proof.
  intros ny nx. exists (point (P ((INR ny - 1) / 2, (INR nx - 1) / 2))).
  rewrite map_map.
  rewrite (map_ext (fun x => reflected (point (P ((INR ny - 1) / 2, (INR nx - 1) / 2))) (P x)) (fun x => P (INR ny - 1 - fst x, INR nx - 1 - snd x))).
  - rewrite <- (map_map (fun yx => (INR ny - 1 - fst yx, INR nx - 1 - snd yx)) P). apply Permutation_map, positions_reflected.
  - intros [y x]. unfold reflected, P, extrapolated_pc, point. cbn. unfold Rdiv.
    generalize (/ (px * b * cols)) (/ (px * b * rows)). intros. f_equal; field.
Qed.

(** The PCs which extrapolate_pc() assigns to all positions of a map of at least two rows and columns, are
    reproduced by fit_pc() at these and at any other positions; the sample tilt is the one used for the
    extrapolation less twice the detector tilt. *)
Theorem C79_extrapolated_pcs_are_fitted : forall svd estimate ny nx map_idx,
  is_svd svd -> is_estimate estimate -> (2 <= ny)%nat -> (2 <= nx)%nat ->
  dx <> 0 -> dy <> 0 -> px * b * rows <> 0 -> px * b * cols <> 0 -> 0 < alpha < PI ->
  pcs (d_pc d) = map P (positions ny nx) ->
  fit_pc svd estimate d (positions ny nx) map_idx None = Some (map P map_idx, d_sample_tilt d - 2 * d_tilt d).
Proof.
  intros svd estimate ny nx map_idx HS HE Hny Hnx Hdx Hdy Hr Hc Ha EP.
  assert (IN : forall y x, (y < ny)%nat -> (x < nx)%nat -> In (INR y, INR x) (positions ny nx)).
  { intros y x Hy Hx. unfold positions. apply in_flat_map. exists y. split; [apply in_seq; lia|].
    apply in_map_iff. exists x. split; [reflexivity|apply in_seq; lia]. }
  pose proof (IN 0%nat 0%nat ltac:(lia) ltac:(lia)) as I00. pose proof (IN 0%nat 1%nat ltac:(lia) ltac:(lia)) as I01.
  pose proof (IN 1%nat 0%nat ltac:(lia) ltac:(lia)) as I10. pose proof (IN 1%nat 1%nat ltac:(lia) ltac:(lia)) as I11.
  cbn in I00, I01, I10, I11.
  assert (F : forall l, Forall2 (image_of identity o u w) l (map P l)).
  { induction l as [|i l IH]; cbn; constructor; [apply extrapolated_image|exact IH]. }
  rewrite (C79_projective_fit_is_exact_partial svd estimate d (positions ny nx) map_idx (map P map_idx) identity o u w); auto.
  - rewrite EP. f_equal. f_equal. apply fitted_tilt_extrapolated; auto. exists 0, 0, 1, 0. split; [exact I00|]. split; [exact I10|]. lra.
  - unfold identity, det3, dot, cross. cbn. lra.
  - apply extrapolated_span; assumption.
  - exists (0, 0), (0, 1), (1, 0), (1, 1). repeat (split; [assumption|]). unfold not_on_a_line. cbn. repeat split; lra.
  - right. rewrite EP. apply extrapolated_symmetric.
  - rewrite EP. apply F.
  - rewrite EP. intro Z. specialize (Z (P (0, 0)) (P (1, 0)) (in_map P _ _ I00) (in_map P _ _ I10)).
    unfold P, extrapolated_pc in Z. cbn in Z. fold alpha in Z.
    assert (S : 0 < sin alpha) by (apply sin_gt_0; tauto).
    assert (K : dy * sin alpha / (px * b * rows) = 0) by (unfold Rdiv in *; lra).
    revert K. unfold Rdiv. apply Rmult_integral_contrapositive. split; [|apply Rinv_neq_0_compat; assumption].
    apply Rmult_integral_contrapositive. split; lra.
Qed.
End Extrapolated.
Print Assumptions C79_extrapolated_pcs_are_fitted.
Example C79_case_extrapolated :
  let d := Det 60 60 1 1 0 0 0 70 (PCArray [2; 3]%nat (map (fun yx => extrapolated_pc
     (Det 60 60 1 1 0 0 0 70 (PCArray [1%nat] [PC (1/2) (1/2) (1/2)])) 60 60 1 1 2 2 0 0 (PC (1/2) (1/2) (1/2)) (fst yx) (snd yx)) (positions 2 3))) in
  0 < deg2rad (90 - d_sample_tilt d + d_tilt d) < PI /\
  pcs (d_pc d) = map (fun yx => extrapolated_pc d 60 60 1 1 2 2 0 0 (PC (1/2) (1/2) (1/2)) (fst yx) (snd yx)) (positions 2 3).
Proof.
  cbn. split; [|reflexivity]. unfold deg2rad. pose proof PI_RGT_0. lra.
Qed.

(** One PC has no tilt: a ValueError, and with more there is an estimate of the x tilt. *)
Theorem C79_one_pc_is_refused : forall svd degrees mask l,
  (estimate_xtilt degrees l = None <-> length l = 1%nat) /\ (length l = 1%nat -> estimate_xtilt_ztilt svd degrees mask l = None).
Proof.
  intros svd degrees mask l. unfold estimate_xtilt, estimate_xtilt_ztilt. destruct (Nat.eqb_spec (length l) 1) as [E|E].
  - split; [tauto|reflexivity].
  - split; [split; [discriminate|contradiction]|contradiction].
Qed.
Print Assumptions C79_one_pc_is_refused.
