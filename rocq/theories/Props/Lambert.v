(** The square Lambert projection (property C36) and the lookup of master pattern intensities
    (property C37). *)
From Coq Require Import Reals ZArith Lra Lia Psatz.
From Verif Require Import Model.Detector Model.Lambert Proofs.LambertProofs Proofs.IntensityProofs.
Local Open Scope R_scope.

(** ** C36.  The square has the half side sqrt (pi / 2); the inverse takes coordinates relative to it. *)

(** Projecting the direction of a point of the square gives this point. *)
Theorem C36_project_inverse x y : -1 <= x <= 1 -> -1 <= y <= 1 ->
  vector2lambert (lambert2vector x y) = (x * sqrt (PI / 2), y * sqrt (PI / 2)).
Proof. apply v2l_l2v. Qed.
(** The direction is recovered from its projection, the lower hemisphere being mirrored onto the upper. *)
Theorem C36_inverse_project v : vx v <> 0 \/ vy v <> 0 \/ vz v <> 0 ->
  let xy := vector2lambert v in
  lambert2vector (fst xy / sqrt (PI / 2)) (snd xy / sqrt (PI / 2))
  = Vec (vx v / norm v) (vy v / norm v) (Rabs (vz v / norm v)).
Proof. intros Hv. pose proof (l2v_v2l_all v Hv) as H. destruct (vector2lambert v) as [X Y]. exact H. Qed.
(** Projected coordinates are inside the square. *)
Theorem C36_projection_inside_square v : vx v <> 0 \/ vy v <> 0 \/ vz v <> 0 ->
  Rabs (fst (vector2lambert v)) <= sqrt (PI / 2) /\ Rabs (snd (vector2lambert v)) <= sqrt (PI / 2).
Proof. apply lambert_inside. Qed.
(** The inverse gives unit vectors on the upper hemisphere. *)
Theorem C36_inverse_on_upper_unit_hemisphere x y : -1 <= x <= 1 -> -1 <= y <= 1 ->
  norm (lambert2vector x y) = 1 /\ 0 <= vz (lambert2vector x y).
Proof.
  intros Hx Hy. destruct (lambert2vector_unit x y Hx Hy) as [H1 H2]. split; [|exact H2].
  unfold norm. rewrite H1. apply sqrt_1.
Qed.
(** Only the direction matters, ... *)
Theorem C36_projection_of_direction k v : 0 < k -> vx v <> 0 \/ vy v <> 0 \/ vz v <> 0 ->
  vector2lambert (Vec (k * vx v) (k * vy v) (k * vz v)) = vector2lambert v.
Proof. apply v2l_scale. Qed.
(** ... both hemispheres are projected alike, ... *)
Theorem C36_hemispheres_alike v : vector2lambert (Vec (vx v) (vy v) (- vz v)) = vector2lambert v.
Proof. apply v2l_mirror. Qed.
(** ... and different directions of the upper hemisphere go to different points. *)
Theorem C36_one_to_one u v : norm u = 1 -> norm v = 1 -> 0 <= vz u -> 0 <= vz v ->
  vector2lambert u = vector2lambert v -> u = v.
Proof.
  intros Nu Nv Zu Zv E.
  assert (NZ : forall w, norm w = 1 -> nonzero w).
  { intros w Hw. pose proof (norm_sq w) as H. rewrite Hw in H. unfold nonzero.
    destruct (Req_dec (vx w) 0) as [E1|]; [|auto]. destruct (Req_dec (vy w) 0) as [E2|]; [|auto]. right. right. intros E3. rewrite E1, E2, E3 in H. lra. }
  pose proof (C36_inverse_project u (NZ u Nu)) as A. pose proof (C36_inverse_project v (NZ v Nv)) as B. cbv zeta in A, B.
  rewrite E in A. rewrite A in B. rewrite Nu, Nv in B. unfold Rdiv in B. rewrite Rinv_1, !Rmult_1_r in B.
  injection B as B1 B2 B3. rewrite !Rabs_pos_eq in B3 by lra. now apply vec_ext.
Qed.
Example direction_of_a_corner : lambert2vector 1 1 = Vec (1 / sqrt 2) (1 / sqrt 2) 0.
Proof.
  unfold lambert2vector. destruct sqrt_PI2 as [Q1 Q2]. pose proof PI_RGT_0. rewrite !Rmult_1_l, Q2.
  destruct (Req_EM_T _ 0) as [E|_]; [pose proof (Rmax_l (Rabs (sqrt (PI/2))) (Rabs (sqrt (PI/2)))); rewrite Rabs_pos_eq in *; lra|].
  destruct (Rle_dec _ _) as [_|]; [|lra]. replace (PI - PI / 2) with (PI / 2) by field.
  replace (sqrt (PI / 2) * PI * (1 / 4) / sqrt (PI / 2)) with (PI / 4) by (field; lra). rewrite sin_PI4, cos_PI4.
  replace (2 * sqrt (PI / 2) * sqrt (PI / 2) / PI) with 1 by (rewrite Rmult_assoc, Q2; field; lra).
  apply vec_ext; cbn [vx vy vz]; try ring. field. lra.
Qed.
Print Assumptions C36_project_inverse.

(** ** C37 *)

Section Lookup.
Variable npx : Z. Hypothesis Hnpx : (1 <= npx)%Z.
Let scale := (IZR npx - 1) / 2.

(** Position of a direction in the pixel grid of a master pattern. *)
Lemma position_range v : nonzero v ->
  0 <= scale * snd (vector2lambert v) / sqrt (PI / 2) + scale <= IZR npx - 1
  /\ 0 <= scale * fst (vector2lambert v) / sqrt (PI / 2) + scale <= IZR npx - 1.
Proof using Hnpx.
  intros Hv. destruct (lambert_inside v Hv) as [H1 H2]. destruct sqrt_PI2 as [Q1 _].
  apply (IZR_le 1) in Hnpx. assert (Hs : 0 <= scale) by (unfold scale; lra).
  assert (R : forall t, Rabs t <= sqrt (PI / 2) -> - scale <= scale * t / sqrt (PI / 2) <= scale).
  { intros t Ht. assert (-1 <= t / sqrt (PI / 2) <= 1).
    { assert (Rabs (t / sqrt (PI / 2)) <= 1) by (apply div_abs_le; [rewrite (Rabs_pos_eq (sqrt _)); lra|lra]).
      unfold Rabs in H. destruct (Rcase_abs (t / sqrt (PI / 2))); lra. }
    replace (scale * t / sqrt (PI / 2)) with (scale * (t / sqrt (PI / 2))) by (field; lra). nra. }
  pose proof (R _ H1). pose proof (R _ H2). unfold scale in *. lra.
Qed.

(** One coordinate: index, next index and weight. *)
Lemma one_coordinate p : 0 <= p <= IZR npx - 1 ->
  let n := trunc p in
  let n1 := if (npx <=? n + 1)%Z then n else (n + 1)%Z in
  let n0 := if (n <? 0)%Z then n1 else n in
  n0 = n /\ (0 <= n < npx)%Z /\ (0 <= n1 < npx)%Z /\ 0 <= p - IZR n < 1
  /\ (n1 = (n + 1)%Z \/ n1 = n /\ p - IZR n = 0).
Proof using Hnpx.
  intros Hp n n1 n0. destruct (trunc_nonneg p) as [Ht Hz]; [lra|]. fold n in Ht, Hz.
  assert (Hn : (n < npx)%Z). { apply lt_IZR. lra. }
  unfold n0. replace (n <? 0)%Z with false by (symmetry; apply Z.ltb_ge; lia).
  unfold n1. destruct (Z.leb_spec npx (n + 1)) as [H|H].
  - assert (E : n = (npx - 1)%Z) by lia. repeat split; try lia; try lra. right. split; [reflexivity|].
    assert (IZR n = IZR npx - 1) by (rewrite E, minus_IZR; reflexivity). lra.
  - repeat split; try lia; try lra.
Qed.

(** The four pixels are inside the array and the weights are fractions, for every direction. *)
Theorem C37_reads_inside_with_valid_weights v : vx v <> 0 \/ vy v <> 0 \/ vz v <> 0 ->
  let l := interpolation_parameters npx npx scale v in
  (0 <= nii l < npx)%Z /\ (0 <= nij l < npx)%Z /\ (0 <= niip l < npx)%Z /\ (0 <= nijp l < npx)%Z
  /\ 0 <= di l <= 1 /\ 0 <= dj l <= 1.
Proof using Hnpx.
  intros Hv. destruct (position_range v Hv) as [Hi Hj]. unfold interpolation_parameters.
  destruct (vector2lambert v) as [lx ly]. cbn [fst snd] in Hi, Hj. cbv zeta.
  destruct (one_coordinate _ Hi) as (E1 & A1 & B1 & C1 & D1). destruct (one_coordinate _ Hj) as (E2 & A2 & B2 & C2 & D2).
  cbn [nii nij niip nijp di dj]. rewrite E1, E2. repeat split; try lia; try lra.
Qed.

(** Hence the intensity is a weighted mean of the four: it does not leave any range they are in, ... *)
Theorem C37_no_overshoot mp v lo hi : vx v <> 0 \/ vy v <> 0 \/ vz v <> 0 ->
  let l := interpolation_parameters npx npx scale v in
  (forall r c, r = nii l \/ r = niip l -> c = nij l \/ c = nijp l -> lo <= mp r c <= hi) ->
  lo <= interpolate mp l <= hi.
Proof using Hnpx.
  intros Hv l H. destruct (C37_reads_inside_with_valid_weights v Hv) as (_ & _ & _ & _ & Hdi & Hdj). fold l in Hdi, Hdj.
  unfold interpolate. pose proof (H (nii l) (nij l) ltac:(auto) ltac:(auto)). pose proof (H (niip l) (nij l) ltac:(auto) ltac:(auto)).
  pose proof (H (nii l) (nijp l) ltac:(auto) ltac:(auto)). pose proof (H (niip l) (nijp l) ltac:(auto) ltac:(auto)).
  set (a := mp (nii l) (nij l)) in *. set (b := mp (niip l) (nij l)) in *. set (c := mp (nii l) (nijp l)) in *. set (d := mp (niip l) (nijp l)) in *.
  set (t := di l) in *. set (u := dj l) in *. clearbody a b c d t u.
  assert (W1 : 0 <= (1 - t) * (1 - u)) by nra. assert (W2 : 0 <= t * (1 - u)) by nra.
  assert (W3 : 0 <= (1 - t) * u) by nra. assert (W4 : 0 <= t * u) by nra.
  replace (a * (1 - t) * (1 - u) + b * t * (1 - u) + c * (1 - t) * u + d * t * u)
    with (a * ((1 - t) * (1 - u)) + b * (t * (1 - u)) + c * ((1 - t) * u) + d * (t * u)) by ring.
  assert (S : (1 - t) * (1 - u) + t * (1 - u) + (1 - t) * u + t * u = 1) by ring.
  set (w1 := (1 - t) * (1 - u)) in *. set (w2 := t * (1 - u)) in *. set (w3 := (1 - t) * u) in *. set (w4 := t * u) in *.
  clearbody w1 w2 w3 w4. split.
  - replace lo with (lo * (w1 + w2 + w3 + w4)) by (rewrite S; ring). nra.
  - replace hi with (hi * (w1 + w2 + w3 + w4)) by (rewrite S; ring). nra.
Qed.
(** ... so no simulated intensity is below the smallest or above the largest of the master pattern. *)
Theorem C37_no_overshoot_of_master_pattern upper lower v lo hi : vx v <> 0 \/ vy v <> 0 \/ vz v <> 0 ->
  (forall r c, (0 <= r < npx)%Z -> (0 <= c < npx)%Z -> lo <= upper r c <= hi /\ lo <= lower r c <= hi) ->
  lo <= pixel_from_master_pattern upper lower npx v <= hi.
Proof using Hnpx.
  intros Hv H. unfold pixel_from_master_pattern. fold scale.
  destruct (C37_reads_inside_with_valid_weights v Hv) as (H1 & H2 & H3 & H4 & _).
  destruct (Rle_dec 0 (vz v)); apply C37_no_overshoot; auto; intros r' c [-> | ->] [-> | ->]; apply H; lia.
Qed.

(** A direction between pixels, k * inverse projection of the point at row r + t and column c + u (the
    first pixel at -1 and the last at 1): the intensity is the bilinear interpolation of the four pixels
    around it. *)
Lemma truncated n t : (0 <= n)%Z -> 0 <= t < 1 -> trunc (IZR n + t) = n.
Proof using.
  intros Hn Ht. apply (IZR_le 0) in Hn. destruct (trunc_nonneg (IZR n + t)) as [[Ha Hb] _]; [lra|].
  apply Z.le_antisymm; apply Z.lt_succ_r; apply lt_IZR; rewrite succ_IZR; lra.
Qed.
Lemma lookup_at r c t u k : (2 <= npx)%Z -> 0 < k -> 0 <= t < 1 -> 0 <= u < 1 ->
  (0 <= r)%Z -> (0 <= c)%Z -> IZR r + t <= IZR npx - 1 -> IZR c + u <= IZR npx - 1 ->
  let w := lambert2vector ((IZR c + u - scale) / scale) ((IZR r + t - scale) / scale) in
  let l := interpolation_parameters npx npx scale (Vec (k * vx w) (k * vy w) (k * vz w)) in
  nii l = r /\ nij l = c /\ niip l = (if (npx <=? r + 1)%Z then r else (r + 1)%Z)
  /\ nijp l = (if (npx <=? c + 1)%Z then c else (c + 1)%Z) /\ di l = t /\ dj l = u /\ 0 <= vz w.
Proof using Hnpx.
  intros Hn2 Hk Ht Hu Hr Hc Hrt Hcu w l. destruct sqrt_PI2 as [Q1 _].
  apply (IZR_le 2) in Hn2. assert (Hs : 0 < scale) by (unfold scale; lra).
  pose proof (IZR_le 0 r Hr). pose proof (IZR_le 0 c Hc).
  assert (In : forall p, 0 <= p <= IZR npx - 1 -> -1 <= (p - scale) / scale <= 1).
  { intros p Hp. split; apply Rmult_le_reg_r with scale; auto; replace ((p - scale) / scale * scale) with (p - scale) by (field; lra); unfold scale in *; lra. }
  pose proof (In (IZR c + u) ltac:(lra)) as Ix. pose proof (In (IZR r + t) ltac:(lra)) as Iy.
  destruct (lambert2vector_unit _ _ Ix Iy) as [Nw Zw]. fold w in Nw, Zw.
  assert (Wn : nonzero w).
  { unfold nonzero. destruct (Req_dec (vx w) 0) as [E1|]; [|auto]. destruct (Req_dec (vy w) 0) as [E2|]; [|auto]. right. right. intros E3. rewrite E1, E2, E3 in Nw. lra. }
  unfold l, interpolation_parameters. rewrite v2l_scale by auto. unfold w. rewrite v2l_l2v by auto. fold w. cbv zeta.
  replace (scale * ((IZR r + t - scale) / scale * sqrt (PI / 2)) / sqrt (PI / 2) + scale) with (IZR r + t) by (field; split; lra).
  replace (scale * ((IZR c + u - scale) / scale * sqrt (PI / 2)) / sqrt (PI / 2) + scale) with (IZR c + u) by (field; split; lra).
  rewrite !truncated by auto.
  replace (r <? 0)%Z with false by (symmetry; apply Z.ltb_ge; lia). replace (c <? 0)%Z with false by (symmetry; apply Z.ltb_ge; lia).
  cbn [nii nij niip nijp di dj]. repeat split; auto; field; split; lra.
Qed.
Theorem C37_bilinear_interpolation upper lower r c t u k : (2 <= npx)%Z -> 0 < k -> 0 <= t < 1 -> 0 <= u < 1 ->
  (0 <= r < npx - 1)%Z -> (0 <= c < npx - 1)%Z ->
  let w := lambert2vector ((IZR c + u - scale) / scale) ((IZR r + t - scale) / scale) in
  pixel_from_master_pattern upper lower npx (Vec (k * vx w) (k * vy w) (k * vz w))
  = (1 - t) * ((1 - u) * upper r c + u * upper r (c + 1)%Z) + t * ((1 - u) * upper (r + 1)%Z c + u * upper (r + 1)%Z (c + 1)%Z).
Proof using Hnpx.
  intros Hn2 Hk Ht Hu Hr Hc w.
  assert (B : forall z x, (z < npx - 1)%Z -> x < 1 -> IZR z + x <= IZR npx - 1).
  { intros z x Hz Hx. assert (z + 1 <= npx - 1)%Z as Hq by lia. apply IZR_le in Hq. rewrite plus_IZR, minus_IZR in Hq. lra. }
  pose proof (lookup_at r c t u k Hn2 Hk Ht Hu (proj1 Hr) (proj1 Hc) (B r t (proj2 Hr) (proj2 Ht)) (B c u (proj2 Hc) (proj2 Hu))) as L.
  cbv zeta in L. fold w in L. destruct L as (E1 & E2 & E3 & E4 & E5 & E6 & Zw).
  unfold pixel_from_master_pattern. fold scale. cbn [vz]. destruct (Rle_dec 0 (k * vz w)) as [_|N]; [|exfalso; apply N; nra].
  unfold interpolate. rewrite E1, E2, E3, E4, E5, E6.
  replace (npx <=? r + 1)%Z with false by (symmetry; apply Z.leb_gt; lia). replace (npx <=? c + 1)%Z with false by (symmetry; apply Z.leb_gt; lia). ring.
Qed.
(** A direction that hits a pixel returns this pixel, also at the edges. *)
Theorem C37_exact_hit upper lower r c k : (2 <= npx)%Z -> 0 < k -> (0 <= r < npx)%Z -> (0 <= c < npx)%Z ->
  let w := lambert2vector ((IZR c - scale) / scale) ((IZR r - scale) / scale) in
  pixel_from_master_pattern upper lower npx (Vec (k * vx w) (k * vy w) (k * vz w)) = upper r c.
Proof using Hnpx.
  intros Hn2 Hk Hr Hc w.
  assert (B : forall z, (z < npx)%Z -> IZR z + 0 <= IZR npx - 1).
  { intros z Hz. assert (z <= npx - 1)%Z as Hq by lia. apply IZR_le in Hq. rewrite minus_IZR in Hq. lra. }
  pose proof (lookup_at r c 0 0 k Hn2 Hk ltac:(lra) ltac:(lra) (proj1 Hr) (proj1 Hc) (B r (proj2 Hr)) (B c (proj2 Hc))) as L.
  cbv zeta in L. rewrite !Rplus_0_r in L. fold w in L. destruct L as (E1 & E2 & E3 & E4 & E5 & E6 & Zw).
  unfold pixel_from_master_pattern. fold scale. cbn [vz]. destruct (Rle_dec 0 (k * vz w)) as [_|N]; [|exfalso; apply N; nra].
  unfold interpolate. rewrite E1, E2, E5, E6. ring.
Qed.
End Lookup.

(** Directions of the lower hemisphere are looked up at the mirrored direction in the other array. *)
Theorem C37_lower_hemisphere upper lower npx v : 0 < vz v ->
  pixel_from_master_pattern upper lower npx (Vec (vx v) (vy v) (- vz v)) = pixel_from_master_pattern lower upper npx v.
Proof.
  intros H. unfold pixel_from_master_pattern, interpolation_parameters. rewrite v2l_mirror. cbn [vz].
  destruct (Rle_dec 0 (- vz v)); [lra|]. destruct (Rle_dec 0 (vz v)); [|lra]. reflexivity.
Qed.

Example lookup_example : pixel_from_master_pattern (fun r c => IZR (10 * r + c)) (fun _ _ => 0) 3 (Vec 0 0 5) = 11.
Proof.
  pose proof (C37_exact_hit 3 ltac:(lia) (fun r c => IZR (10 * r + c)) (fun _ _ => 0) 1 1 5 ltac:(lia) ltac:(lra) ltac:(lia) ltac:(lia)) as H.
  cbv zeta in H. replace ((1 - (3 - 1) / 2) / ((3 - 1) / 2)) with 0 in H by field.
  assert (E : lambert2vector 0 0 = Vec 0 0 1).
  { unfold lambert2vector. rewrite Rmult_0_l, Rabs_R0, Rmax_left by lra. destruct (Req_EM_T 0 0); [reflexivity|lra]. }
  rewrite E in H. cbn [vx vy vz] in H. rewrite !Rmult_0_r, Rmult_1_r in H. exact H.
Qed.
Print Assumptions C37_bilinear_interpolation.
