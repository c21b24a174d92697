From Coq Require Import String Ascii.
From Coq Require Import ZArith Reals List Lra Lia Psatz.
From Verif Require Import Spec.DetectorGeometry Model.Detector.
Import ListNotations.
Open Scope R_scope.

(** A detector as the documentation describes it: at least one pixel, positive pixel
    size and binning. *)
Definition valid (d : detector) : Prop :=
  (1 <= d_ny d)%Z /\ (1 <= d_nx d)%Z /\ 0 < d_px_size d /\ 0 < d_binning d.

Lemma valid_pos d : valid d -> 1 <= nrows d /\ 1 <= ncols d.
Proof.
  intros (H1 & H2 & _). unfold nrows, ncols. split; apply (IZR_le 1); assumption.
Qed.

Lemma pc_eq x y z x' y' z' : x = x' -> y = y' -> z = z' -> PC x y z = PC x' y' z'.
Proof. congruence. Qed.

Lemma rmin_pos a b : 0 < a -> 0 < b -> 0 < Rmin a b.
Proof. intros. apply Rmin_glb_lt; assumption. Qed.

Section Inverse.
Context (d : detector) (Hv : valid d).
Let Hr := proj1 (valid_pos d Hv).
Let Hc := proj2 (valid_pos d Hv).
Let Hp : 0 < d_px_size d := proj1 (proj2 (proj2 Hv)).
Let Hb : 0 < d_binning d := proj2 (proj2 (proj2 Hv)).

Lemma emsoft_inv1 v p : pc_bruker2emsoft v d (pc_emsoft2bruker v d p) = p.
Proof.
  destruct p as [x y z]. unfold pc_bruker2emsoft, pc_emsoft2bruker. simpl.
  destruct (Nat.ltb v 5); apply pc_eq; field; repeat split; try lra; pose proof Hr; pose proof Hc; lra.
Qed.
Lemma emsoft_inv2 v p : pc_emsoft2bruker v d (pc_bruker2emsoft v d p) = p.
Proof.
  destruct p as [x y z]. unfold pc_bruker2emsoft, pc_emsoft2bruker. simpl.
  destruct (Nat.ltb v 5); apply pc_eq; field; repeat split; try lra; pose proof Hr; pose proof Hc; lra.
Qed.
Lemma min_ne : Rmin (nrows d) (ncols d) <> 0.
Proof. pose proof (rmin_pos (nrows d) (ncols d)). pose proof Hr; pose proof Hc. lra. Qed.
Lemma tsl_inv1 p : pc_bruker2tsl d (pc_tsl2bruker d p) = p.
Proof.
  destruct p as [x y z]. unfold pc_bruker2tsl, pc_tsl2bruker. simpl.
  pose proof min_ne. pose proof Hr. apply pc_eq; field; repeat split; lra.
Qed.
Lemma tsl_inv2 p : pc_tsl2bruker d (pc_bruker2tsl d p) = p.
Proof.
  destruct p as [x y z]. unfold pc_bruker2tsl, pc_tsl2bruker. simpl.
  pose proof min_ne. pose proof Hr. apply pc_eq; field; repeat split; lra.
Qed.
Lemma oxford_inv1 p : pc_bruker2oxford d (pc_oxford2bruker d p) = p.
Proof.
  destruct p as [x y z]. unfold pc_bruker2oxford, pc_oxford2bruker, aspect_ratio. simpl.
  pose proof Hr; pose proof Hc. apply pc_eq; field; repeat split; lra.
Qed.
Lemma oxford_inv2 p : pc_oxford2bruker d (pc_bruker2oxford d p) = p.
Proof.
  destruct p as [x y z]. unfold pc_bruker2oxford, pc_oxford2bruker, aspect_ratio. simpl.
  pose proof Hr; pose proof Hc. apply pc_eq; field; repeat split; lra.
Qed.

Lemma to_from conv p q : from_bruker conv d p = Some q -> to_bruker conv d q = Some p.
Proof.
  unfold from_bruker, to_bruker. destruct (get_pc_convention conv) as [[]|]; intros H;
    try discriminate; injection H as <-; f_equal.
  - apply tsl_inv2.
  - apply oxford_inv2.
  - apply emsoft_inv2.
Qed.
Lemma from_to conv p q : to_bruker conv d p = Some q -> from_bruker conv d q = Some p.
Proof.
  unfold from_bruker, to_bruker. destruct (get_pc_convention conv) as [[]|]; intros H;
    try discriminate; injection H as <-; f_equal.
  - apply tsl_inv1.
  - apply oxford_inv1.
  - apply emsoft_inv1.
Qed.

Lemma rmin_scale k a b : 0 <= k -> Rmin (a * k) (b * k) = Rmin a b * k.
Proof.
  intros Hk. unfold Rmin. destruct (Rle_dec (a * k) (b * k)), (Rle_dec a b); try lra; nra.
Qed.

Lemma to_bruker_position name pos p q :
  In (name, pos) documented_conventions ->
  to_bruker name d p = Some q ->
  bruker_position (nrows d) (ncols d) (d_binning d) (d_px_size d) (pcx q) (pcy q) (pcz q)
  = pos (nrows d) (ncols d) (d_binning d) (d_px_size d) (pcx p) (pcy p) (pcz p).
Proof.
  destruct p as [x y z]. intros Hin. pose proof Hr; pose proof Hc; pose proof Hp; pose proof Hb.
  assert (Hmin : Rmin (nrows d * d_binning d * d_px_size d) (ncols d * d_binning d * d_px_size d)
                 = Rmin (nrows d) (ncols d) * (d_binning d * d_px_size d)).
  { rewrite !Rmult_assoc. apply rmin_scale. nra. }
  unfold documented_conventions in Hin. simpl in Hin.
  repeat (destruct Hin as [Hin|Hin]; [injection Hin as <- <-|]); [..|contradiction];
    cbv -[Rplus Rmult Rminus Rdiv Ropp Rinv Rmin nrows ncols d_binning d_px_size aspect_ratio
          bruker_position tsl_position oxford_position emsoft_position emsoft4_position IZR];
    intros Hq; injection Hq as <-;
    unfold bruker_position, tsl_position, oxford_position, emsoft_position, emsoft4_position, aspect_ratio;
    cbn [pcx pcy pcz]; rewrite ?Hmin; f_equal; field; repeat split; lra.
Qed.
End Inverse.

Lemma new_detector_pc_in ny nx px b ti az tw st pc conv d :
  (1 <= ny)%Z -> (1 <= nx)%Z -> 0 < px -> 0 < b ->
  new_detector ny nx px b ti az tw st pc conv = Some d ->
  detector_pc_in conv d = Some pc.
Proof.
  intros H1 H2 H3 H4. unfold new_detector, detector_pc_in.
  destruct (get_pc_convention conv) as [c|]; [|discriminate]. intros H. injection H as <-.
  set (d0 := Det ny nx px b ti az tw st pc).
  assert (Hv : valid d0) by (repeat split; assumption).
  f_equal. unfold with_pc, map_pc. cbn [d_pc nav_shape pcs].
  destruct pc as [shape l]. cbn [nav_shape pcs]. f_equal. rewrite map_map.
  rewrite <- (map_id l) at 2. apply map_ext. intros p.
  destruct c; [reflexivity| | |].
  - apply (tsl_inv1 d0 Hv).
  - apply (oxford_inv1 d0 Hv).
  - apply (emsoft_inv1 d0 Hv).
Qed.

(* ---------- gnomonic coordinates ---------- *)

Lemma gn_span_x d p : valid d -> pcz p <> 0 -> x_max d p - x_min d p = aspect_ratio d / pcz p.
Proof. intros Hv Hz. unfold x_max, x_min. field. exact Hz. Qed.
Lemma gn_span_y d p : pcz p <> 0 -> y_min d p - y_max d p = - / pcz p.
Proof. intros Hz. unfold y_max, y_min. field. exact Hz. Qed.
Lemma aspect_pos d : valid d -> 0 < aspect_ratio d.
Proof.
  intros Hv. destruct (valid_pos d Hv). unfold aspect_ratio. apply Rdiv_lt_0_compat; lra.
Qed.
Lemma pair_eq {A B} (a a' : A) (b b' : B) : a = a' -> b = b' -> (a, b) = (a', b').
Proof. congruence. Qed.

Lemma pixel_gnomonic d p yx : valid d -> pcz p <> 0 -> to_pixel d p (to_gnomonic d p yx) = yx.
Proof.
  intros Hv Hz. destruct yx as [y x]. destruct (valid_pos d Hv).
  pose proof (aspect_pos d Hv).
  unfold to_pixel, to_gnomonic, apply_factors, gn_to_pix, pix_to_gn; simpl.
  rewrite !gn_span_x, !gn_span_y by assumption.
  apply pair_eq; field; repeat split; try lra.
Qed.
Lemma gnomonic_pixel d p yx : valid d -> pcz p <> 0 -> to_gnomonic d p (to_pixel d p yx) = yx.
Proof.
  intros Hv Hz. destruct yx as [y x]. destruct (valid_pos d Hv).
  pose proof (aspect_pos d Hv).
  unfold to_pixel, to_gnomonic, apply_factors, gn_to_pix, pix_to_gn; simpl.
  rewrite !gn_span_x, !gn_span_y by assumption.
  apply pair_eq; field; repeat split; try lra.
Qed.

(** The pixel-to-gnomonic conversion agrees with the geometric definition. *)
Lemma to_gnomonic_geometry d p y x :
  valid d -> pcz p <> 0 ->
  let pos := bruker_position (nrows d) (ncols d) (d_binning d) (d_px_size d) (pcx p) (pcy p) (pcz p) in
  let px := d_binning d * d_px_size d in
  to_gnomonic d p (y, x) = (gnomonic_y pos (y * px), gnomonic_x pos (x * px)).
Proof.
  intros Hv Hz pos px. destruct (valid_pos d Hv). destruct Hv as (? & ? & Hp & Hb).
  unfold to_gnomonic, apply_factors, pix_to_gn, pos, px; simpl.
  unfold gnomonic_y, gnomonic_x, bruker_position, y_min, y_max, x_min, x_max, aspect_ratio; simpl.
  apply pair_eq; field; repeat split; lra.
Qed.

Lemma convert_roundtrip d (l : list (R * R)) fs gs :
  (forall p, In p (pcs (d_pc d)) -> forall yx, apply_factors (gs p) (apply_factors (fs p) yx) = yx) ->
  forall ls, convert_coordinates (map fs (pcs (d_pc d))) (Shared l) = PerPC ls ->
  convert_coordinates (map gs (pcs (d_pc d))) (Stacked ls)
  = PerPC (map (fun _ => l) (pcs (d_pc d))).
Proof.
  intros H ls Hls. cbn [convert_coordinates] in Hls. injection Hls as <-.
  cbn [convert_coordinates]. rewrite !map_length, Nat.eqb_refl. f_equal.
  induction (pcs (d_pc d)) as [|p ps IH]; [reflexivity|].
  simpl. f_equal.
  - rewrite map_map. rewrite <- (map_id l) at 2. apply map_ext. intros yx. apply H. left; reflexivity.
  - apply IH. intros q Hq. apply H. right; exact Hq.
Qed.

(* ---------- crop ---------- *)

Lemma crop_inside d top bottom left right d' :
  (0 <= top)%Z -> (bottom <= d_ny d)%Z -> (0 <= left)%Z -> (right <= d_nx d)%Z ->
  crop d (top, bottom, left, right) = Some d' ->
  (top < bottom)%Z /\ (left < right)%Z /\ d_ny d' = (bottom - top)%Z /\ d_nx d' = (right - left)%Z /\
  d_px_size d' = d_px_size d /\ d_tilt d' = d_tilt d /\ d_azimuthal d' = d_azimuthal d /\
  d_sample_tilt d' = d_sample_tilt d /\ d_twist d' = 0 /\
  d_binning d' = IZR (trunc (d_binning d)) /\
  nav_shape (d_pc d') = dstack_shape (nav_shape (d_pc d)) /\
  pcs (d_pc d') = map (fun p => PC ((pcx p * ncols d - IZR left) / IZR (right - left))
                                ((pcy p * nrows d - IZR top) / IZR (bottom - top))
                                (pcz p * nrows d / IZR (bottom - top))) (pcs (d_pc d)).
Proof.
  intros H1 H2 H3 H4. unfold crop.
  rewrite (Z.max_l top 0), (Z.max_l left 0), (Z.min_l bottom), (Z.min_l right) by assumption.
  destruct (Z.leb_spec (bottom - top) 0); [discriminate|].
  destruct (Z.leb_spec (right - left) 0); [discriminate|]. simpl.
  intros H'. injection H' as <-. simpl. repeat split; lia.
Qed.

Lemma crop_gnomonic d top bottom left right d' i p p' y x :
  valid d ->
  (0 <= top)%Z -> (bottom <= d_ny d)%Z -> (0 <= left)%Z -> (right <= d_nx d)%Z ->
  crop d (top, bottom, left, right) = Some d' ->
  nth_error (pcs (d_pc d)) i = Some p -> nth_error (pcs (d_pc d')) i = Some p' ->
  pcz p <> 0 ->
  to_gnomonic d' p' (y, x) = to_gnomonic d p (y + IZR top, x + IZR left).
Proof.
  intros Hv H1 H2 H3 H4 Hc Hp Hp' Hz.
  destruct (crop_inside _ _ _ _ _ _ H1 H2 H3 H4 Hc) as (Ht & Hl & Eny & Enx & _ & _ & _ & _ & _ & _ & _ & Epc).
  rewrite Epc, nth_error_map, Hp in Hp'. simpl in Hp'. injection Hp' as <-.
  destruct (valid_pos d Hv) as [Hr Hcl].
  assert (Hny : 0 < IZR (bottom - top)) by (apply (IZR_lt 0); lia).
  assert (Hnx : 0 < IZR (right - left)) by (apply (IZR_lt 0); lia).
  unfold to_gnomonic, apply_factors, pix_to_gn, y_min, y_max, x_min, x_max, aspect_ratio; simpl.
  unfold nrows at 1 2 3 4 5, ncols at 1 2 3 4 5.
  rewrite ?Eny, ?Enx. unfold nrows, ncols in *. rewrite ?Eny, ?Enx.
  apply pair_eq; field; repeat split; lra.
Qed.

Lemma trunc_IZR z : trunc (IZR z) = z.
Proof.
  assert (Hup : forall k, up (IZR k) = (k + 1)%Z).
  { intros k. symmetry. apply tech_up; rewrite plus_IZR; lra. }
  unfold trunc. destruct (Rle_dec 0 (IZR z)).
  - rewrite Hup. lia.
  - rewrite <- opp_IZR, Hup. lia.
Qed.

Lemma dstack_idem s : dstack_shape (dstack_shape s) = dstack_shape s.
Proof. destruct s as [|a [|b s]]; reflexivity. Qed.

Lemma crop_crop d t1 b1 l1 r1 t2 b2 l2 r2 d1 d2 :
  valid d ->
  (0 <= t1)%Z -> (b1 <= d_ny d)%Z -> (0 <= l1)%Z -> (r1 <= d_nx d)%Z ->
  (0 <= t2)%Z -> (b2 <= b1 - t1)%Z -> (0 <= l2)%Z -> (r2 <= r1 - l1)%Z ->
  crop d (t1, b1, l1, r1) = Some d1 -> crop d1 (t2, b2, l2, r2) = Some d2 ->
  crop d (t1 + t2, t1 + b2, l1 + l2, l1 + r2)%Z = Some d2.
Proof.
  intros Hv A1 A2 A3 A4 B1 B2 B3 B4 C1 C2.
  destruct (crop_inside _ _ _ _ _ _ A1 A2 A3 A4 C1) as (Ht & Hl & Eny & Enx & E1 & E2 & E3 & E4 & E5 & E6 & E7 & E8).
  destruct (crop_inside d1 t2 b2 l2 r2 d2) as (Ht2 & Hl2 & Fny & Fnx & F1 & F2 & F3 & F4 & F5 & F6 & F7 & F8); try lia; [exact C2|].
  destruct (crop d (t1 + t2, t1 + b2, l1 + l2, l1 + r2)%Z) as [d3|] eqn:C3.
  - destruct (crop_inside d (t1 + t2) (t1 + b2) (l1 + l2) (l1 + r2) d3) as (Ht3 & Hl3 & Gny & Gnx & G1 & G2 & G3 & G4 & G5 & G6 & G7 & G8); try lia; [exact C3|].
    f_equal. destruct d3 as [a b c e f g h i [j k]], d2 as [a' b' c' e' f' g' h' i' [j' k']].
    cbn [d_ny d_nx d_px_size d_binning d_tilt d_azimuthal d_twist d_sample_tilt d_pc nav_shape pcs] in *.
    assert (a = a') by lia. assert (b = b') by lia. assert (c = c') by congruence.
    assert (e = e') by (rewrite G6, F6, E6, trunc_IZR; reflexivity).
    assert (j = j') by (rewrite G7, F7, E7, dstack_idem; reflexivity).
    assert (k = k').
    { rewrite G8, F8, E8, map_map. apply map_ext. intros p. simpl. unfold nrows, ncols. rewrite Eny, Enx.
      replace (t1 + b2 - (t1 + t2))%Z with (b2 - t2)%Z by lia.
      replace (l1 + r2 - (l1 + l2))%Z with (r2 - l2)%Z by lia.
      assert (0 < IZR (b2 - t2)) by (apply (IZR_lt 0); lia).
      assert (0 < IZR (r2 - l2)) by (apply (IZR_lt 0); lia).
      assert (0 < IZR (b1 - t1)) by (apply (IZR_lt 0); lia).
      assert (0 < IZR (r1 - l1)) by (apply (IZR_lt 0); lia).
      rewrite !plus_IZR.
      apply pc_eq; field; repeat split; lra. }
    congruence.
  - exfalso. unfold crop in C3.
    rewrite (Z.max_l (t1 + t2) 0), (Z.max_l (l1 + l2) 0), (Z.min_l (t1 + b2)), (Z.min_l (l1 + r2)) in C3 by lia.
    destruct (Z.leb_spec (t1 + b2 - (t1 + t2)) 0); [lia|].
    destruct (Z.leb_spec (l1 + r2 - (l1 + l2)) 0); [lia|]. discriminate.
Qed.

(* ---------- r_max ---------- *)

Definition corner_radius (d : detector) (p : pc3) (x y : R) : R := sqrt (x^2 + y^2).

Lemma sq_le_abs a b : a^2 <= b^2 <-> Rabs a <= Rabs b.
Proof.
  rewrite <- !Rsqr_pow2. split; [apply Rsqr_le_abs_0|apply Rsqr_le_abs_1].
Qed.
Lemma x_min_le d p : valid d -> 0 < pcz p -> pcx p <= /2 -> (x_min d p)^2 <= (x_max d p)^2.
Proof.
  intros Hv Hz H. pose proof (aspect_pos d Hv) as Ha.
  assert (E : (x_max d p)^2 - (x_min d p)^2 = (aspect_ratio d / pcz p)^2 * (1 - 2 * pcx p)).
  { unfold x_min, x_max. field. lra. }
  assert (0 <= (aspect_ratio d / pcz p)^2) by apply pow2_ge_0. nra.
Qed.
Lemma x_max_le d p : valid d -> 0 < pcz p -> /2 <= pcx p -> (x_max d p)^2 <= (x_min d p)^2.
Proof.
  intros Hv Hz H. pose proof (aspect_pos d Hv) as Ha.
  assert (E : (x_max d p)^2 - (x_min d p)^2 = (aspect_ratio d / pcz p)^2 * (1 - 2 * pcx p)).
  { unfold x_min, x_max. field. lra. }
  assert (0 <= (aspect_ratio d / pcz p)^2) by apply pow2_ge_0. nra.
Qed.
Lemma y_max_le d p : 0 < pcz p -> pcy p <= /2 -> (y_max d p)^2 <= (y_min d p)^2.
Proof.
  intros Hz H.
  assert (E : (y_min d p)^2 - (y_max d p)^2 = (/ pcz p)^2 * (1 - 2 * pcy p)).
  { unfold y_min, y_max. field. lra. }
  assert (0 <= (/ pcz p)^2) by apply pow2_ge_0. nra.
Qed.
Lemma y_min_le d p : 0 < pcz p -> /2 <= pcy p -> (y_min d p)^2 <= (y_max d p)^2.
Proof.
  intros Hz H.
  assert (E : (y_min d p)^2 - (y_max d p)^2 = (/ pcz p)^2 * (1 - 2 * pcy p)).
  { unfold y_min, y_max. field. lra. }
  assert (0 <= (/ pcz p)^2) by apply pow2_ge_0. nra.
Qed.

Lemma rmax4_ge a b c e : a <= Rmax (Rmax a b) (Rmax c e) /\ b <= Rmax (Rmax a b) (Rmax c e)
  /\ c <= Rmax (Rmax a b) (Rmax c e) /\ e <= Rmax (Rmax a b) (Rmax c e).
Proof.
  pose proof (Rmax_l a b). pose proof (Rmax_r a b). pose proof (Rmax_l c e). pose proof (Rmax_r c e).
  pose proof (Rmax_l (Rmax a b) (Rmax c e)). pose proof (Rmax_r (Rmax a b) (Rmax c e)). lra.
Qed.
Lemma rmax_in a b : Rmax a b = a \/ Rmax a b = b.
Proof. unfold Rmax. destruct (Rle_dec a b); auto. Qed.
Lemma rmax4_in a b c e m : m = Rmax (Rmax a b) (Rmax c e) -> m = a \/ m = b \/ m = c \/ m = e.
Proof.
  intros ->. destruct (rmax_in (Rmax a b) (Rmax c e)) as [-> | ->].
  - destruct (rmax_in a b) as [-> | ->]; auto.
  - destruct (rmax_in c e) as [-> | ->]; auto.
Qed.

(** Square of a value between two bounds. *)
Lemma between_sq a b x : a <= x <= b -> x^2 <= a^2 \/ x^2 <= b^2.
Proof. intros [H1 H2]. destruct (Rle_dec 0 x); [right|left]; nra. Qed.

Lemma r_max_bound d p x y :
  valid d -> 0 < pcz p -> (pcx p <= /2 \/ pcy p <= /2) ->
  x_min d p <= x <= x_max d p -> y_min d p <= y <= y_max d p ->
  sqrt (x^2 + y^2) <= r_max d p.
Proof.
  intros Hv Hz Hc Hx Hy. unfold r_max. apply sqrt_le_1_alt.
  match goal with |- _ <= Rmax (Rmax ?a ?b) (Rmax ?c ?e) => pose proof (rmax4_ge a b c e) as HM end.
  cbv zeta in *.
  set (m := Rmax _ _) in *. clearbody m.
  destruct (between_sq _ _ _ Hx) as [Hx2|Hx2], (between_sq _ _ _ Hy) as [Hy2|Hy2]; try lra.
  (* upper left: dominated by another corner *)
  destruct Hc as [Hc|Hc].
  - pose proof (x_min_le d p Hv Hz Hc). lra.
  - pose proof (y_max_le d p Hz Hc). lra.
Qed.

Lemma r_max_attained d p :
  exists x y, (x = x_min d p \/ x = x_max d p) /\ (y = y_min d p \/ y = y_max d p) /\
    r_max d p = sqrt (x^2 + y^2).
Proof.
  unfold r_max. cbv zeta.
  match goal with |- context [sqrt (Rmax (Rmax ?a ?b) (Rmax ?c ?e))] =>
    destruct (rmax4_in a b c e _ eq_refl) as [E|[E|[E|E]]]; rewrite E; clear E end.
  - exists (x_min d p), (y_min d p). split; [auto|split; auto].
  - exists (x_max d p), (y_min d p). split; [auto|split; auto].
  - exists (x_max d p), (y_max d p). split; [auto|split; auto].
  - exists (x_min d p), (y_min d p). split; [auto|split; auto].
Qed.

Lemma r_max_too_small d p :
  valid d -> 0 < pcz p -> /2 < pcx p -> /2 < pcy p ->
  r_max d p < sqrt ((x_min d p)^2 + (y_max d p)^2).
Proof.
  intros Hv Hz Hx Hy. pose proof (aspect_pos d Hv) as Ha.
  assert (E : (x_max d p)^2 - (x_min d p)^2 = (aspect_ratio d / pcz p)^2 * (1 - 2 * pcx p)).
  { unfold x_min, x_max. field. lra. }
  assert (E2 : (y_min d p)^2 - (y_max d p)^2 = (/ pcz p)^2 * (1 - 2 * pcy p)).
  { unfold y_min, y_max. field. lra. }
  assert (0 < (aspect_ratio d / pcz p)^2).
  { apply pow_lt. apply Rdiv_lt_0_compat; assumption. }
  assert (0 < (/ pcz p)^2) by (apply pow_lt, Rinv_0_lt_compat; assumption).
  assert ((x_max d p)^2 < (x_min d p)^2) by nra.
  assert ((y_min d p)^2 < (y_max d p)^2) by nra.
  assert (0 <= (x_max d p)^2) by apply pow2_ge_0. assert (0 <= (y_min d p)^2) by apply pow2_ge_0.
  unfold r_max. cbv zeta. apply sqrt_lt_1_alt.
  match goal with |- 0 <= ?m < _ => destruct (rmax4_in _ _ _ _ m eq_refl) as [E'|[E'|[E'|E']]]; rewrite E' end; lra.
Qed.
