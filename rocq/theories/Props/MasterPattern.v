(** Master pattern signals: the Lambert projection (property C70), and the energy and hemispheres used in simulations
    (property C71). *)
From Coq Require Import List Arith ZArith Reals Bool Lra Lia Psatz String.
From Verif Require Import Model.Detector Model.Lambert Model.MasterPattern Spec.Euler Spec.KikuchiBandIntensity
  Proofs.LambertProofs Props.Lambert.
Import ListNotations.
Local Open Scope R_scope.

(** ** Specification *)

(** Direction shown by the pixel at row and column of a Lambert or stereographic pattern of the upper
    hemisphere: the unit vector with z >= 0 whose square Lambert (half side sqrt (pi / 2)) or stereographic
    coordinates are those of the pixel, from -1 for the first to 1 for the last. *)
Definition place (n k : nat) : R := 2 * INR k / INR (n - 1) - 1.
Definition lambert_direction (n row col : nat) (v : vec) : Prop :=
  norm v = 1 /\ 0 <= vz v /\ vector2lambert v = (place n col * sqrt (PI / 2), place n row * sqrt (PI / 2)).
Definition stereographic_point (v : vec) : R * R := from_south v.
(** Mirrored direction, shown by the same pixel of the lower hemisphere *)
Definition below (v : vec) : vec := Vec (vx v) (vy v) (- vz v).

Inductive side := Upper | Lower.
Definition on_side (sd : side) (v : vec) : vec := match sd with Upper => v | Lower => below v end.

(** ** C70 *)

Lemma linspace_place n k : linspace n k = place n k.
Proof. unfold linspace, place, Rdiv. ring. Qed.
Lemma place_range n k : (2 <= n)%nat -> (k < n)%nat -> -1 <= place n k <= 1.
Proof.
  intros Hn Hk. unfold place. assert (H : 1 <= INR (n - 1)) by (change 1 with (INR 1); apply le_INR; lia).
  assert (0 <= INR k) by apply pos_INR. assert (INR k <= INR (n - 1)) by (apply le_INR; lia).
  assert (E : 2 * INR k / INR (n - 1) * INR (n - 1) = 2 * INR k) by (field; lra). set (q := 2 * INR k / INR (n - 1)) in *. nra.
Qed.
Lemma lambert_direction_exists n row col : (2 <= n)%nat -> (row < n)%nat -> (col < n)%nat ->
  lambert_direction n row col (lambert2vector (place n col) (place n row)).
Proof.
  intros Hn Hr Hc. pose proof (place_range n row Hn Hr) as A. pose proof (place_range n col Hn Hc) as B.
  destruct (C36_inverse_on_upper_unit_hemisphere _ _ B A). split; [assumption|]. split; [assumption|]. now apply C36_project_inverse.
Qed.
Lemma lambert_direction_unique n row col u v : lambert_direction n row col u -> lambert_direction n row col v -> u = v.
Proof. intros (A & B & C) (D & E & F). apply C36_one_to_one; auto. now rewrite C, F. Qed.

(** Pixels of the converted pattern are interpolated at the stereographic coordinates (rows first) of the
    directions that they show in the Lambert projection, in all hemispheres and at all energies; the
    coordinates, from 0 for the first to 2 for the last row and column, are inside the pattern. *)
Theorem C70_pixels_show_their_directions interpn s s' h e row col values v :
  as_lambert interpn s = Some s' -> projection s <> "lambert"%string -> (2 <= size s)%nat ->
  (row < size s)%nat -> (col < size s)%nat ->
  (exists es, nth_error (patterns s) h = Some es /\ nth_error es e = Some values) ->
  lambert_direction (size s) row col v ->
  exists es' values', nth_error (patterns s') h = Some es' /\ nth_error es' e = Some values' /\
    values' row col = interpn (size s) values (snd (stereographic_point v) + 1, fst (stereographic_point v) + 1) /\
    0 <= snd (stereographic_point v) + 1 <= 2 /\ 0 <= fst (stereographic_point v) + 1 <= 2.
Proof.
  intros H Hp Hn Hr Hc (es & He & Hv) Hd. unfold as_lambert in H. destruct (String.eqb_spec (projection s) "lambert"); [contradiction|].
  destruct (lazy s); [discriminate|]. injection H as <-. cbn [patterns].
  eexists. eexists. rewrite nth_error_map, He. split; [reflexivity|]. rewrite nth_error_map, Hv. split; [reflexivity|]. split.
  - unfold xi. rewrite !linspace_place. rewrite (lambert_direction_unique _ _ _ _ _ (lambert_direction_exists _ _ _ Hn Hr Hc) Hd). reflexivity.
  - destruct Hd as (N & Z & _). pose proof (norm_sq v) as S. rewrite N in S. unfold stereographic_point, from_south. cbn [fst snd].
    destruct v as [x y z]. cbn [vx vy vz] in *.
    assert (X : x / (1 + z) * (1 + z) = x) by (field; lra). assert (Y : y / (1 + z) * (1 + z) = y) by (field; lra).
    set (a := x / (1 + z)) in *. set (b := y / (1 + z)) in *. 
    assert (B : forall q w, q * (1 + z) = w -> w * w <= 1 -> -1 <= q <= 1).
    { intros q w E Hw. assert (q * q * ((1 + z) * (1 + z)) <= 1) by (replace (q * q * ((1 + z) * (1 + z))) with ((q * (1 + z)) * (q * (1 + z))) by ring; rewrite E; exact Hw).
      assert (1 <= (1 + z) * (1 + z)) by nra. assert (q * q <= 1) by nra. split; nra. }
    pose proof (B a x X ltac:(nra)). pose proof (B b y Y ltac:(nra)). lra.
Qed.

(** If the interpolation gives back a function of the direction from its pixels, then the converted pattern
    has the values of this function at its own directions: nothing is moved or turned.  In the lower
    hemisphere, pixels show mirrored directions in both projections. *)
Definition sampled (n : nat) (f : vec -> R) (values : image) : Prop :=
  forall row col v, (row < n)%nat -> (col < n)%nat -> norm v = 1 -> stereographic_point v = (place n col, place n row) -> 0 <= vz v -> values row col = f v.
Definition reproduces (interpn : nat -> image -> R * R -> R) (n : nat) (f : vec -> R) : Prop :=
  forall values v, sampled n f values -> norm v = 1 -> 0 <= vz v ->
    interpn n values (snd (stereographic_point v) + 1, fst (stereographic_point v) + 1) = f v.
Theorem C70_intensities_of_directions_kept interpn s s' h e es values f sd :
  as_lambert interpn s = Some s' -> projection s <> "lambert"%string -> (2 <= size s)%nat ->
  nth_error (patterns s) h = Some es -> nth_error es e = Some values ->
  reproduces interpn (size s) (fun v => f (on_side sd v)) -> sampled (size s) (fun v => f (on_side sd v)) values ->
  exists es' values', nth_error (patterns s') h = Some es' /\ nth_error es' e = Some values' /\
    forall row col v, (row < size s)%nat -> (col < size s)%nat -> lambert_direction (size s) row col v -> values' row col = f (on_side sd v).
Proof.
  intros H Hp Hn He Hv Hi Hs.
  destruct (C70_pixels_show_their_directions interpn s s' h e 0 0 values _ H Hp Hn ltac:(lia) ltac:(lia) (ex_intro _ es (conj He Hv)) (lambert_direction_exists _ 0 0 Hn ltac:(lia) ltac:(lia)))
    as (es' & values' & E1 & E2 & _).
  exists es', values'. split; [exact E1|]. split; [exact E2|]. intros row col v Hr Hc Hd.
  destruct (C70_pixels_show_their_directions interpn s s' h e row col values v H Hp Hn Hr Hc (ex_intro _ es (conj He Hv)) Hd) as (es2 & values2 & F1 & F2 & F3 & _).
  rewrite E1 in F1. injection F1 as <-. rewrite E2 in F2. injection F2 as <-. rewrite F3. apply Hi; [exact Hs|apply Hd|apply Hd].
Qed.

(** Everything else is kept; a Lambert pattern is returned as it is; lazy patterns are refused. *)
Theorem C70_rest_kept interpn s s' : as_lambert interpn s = Some s' ->
  projection s' = "lambert"%string /\ hemisphere s' = hemisphere s /\ size s' = size s /\ energy_axis s' = energy_axis s /\
  point_group_inversion s' = point_group_inversion s /\ map (@List.length image) (patterns s') = map (@List.length image) (patterns s) /\
  (projection s = "lambert"%string -> s' = s).
Proof.
  unfold as_lambert. destruct (String.eqb_spec (projection s) "lambert").
  - intros H. injection H as <-. repeat split; auto.
  - destruct (lazy s); [discriminate|]. intros H. injection H as <-. cbn. repeat split; auto; [|contradiction].
    rewrite map_map. apply map_ext. intros l. now rewrite map_length.
Qed.
Theorem C70_lazy_refused interpn s : as_lambert interpn s = None <-> lazy s = true /\ projection s <> "lambert"%string.
Proof.
  unfold as_lambert. destruct (String.eqb_spec (projection s) "lambert"), (lazy s); split; intros H; try discriminate; try easy; destruct H; easy.
Qed.

(** ** C71 *)

(** *** Energy *)
Lemma closest_spec axis e : axis <> [] -> (closest axis e < List.length axis)%nat /\ Forall (fun a => Rabs (nth (closest axis e) axis 0 - e) <= Rabs (a - e)) axis.
Proof.
  induction axis as [|a rest IH]; intros H; [easy|]. destruct rest as [|b rest].
  - cbn. split; [lia|]. repeat constructor; lra.
  - destruct IH as [L F]; [easy|]. set (r := b :: rest) in *.
    assert (E : closest (a :: r) e = if Rle_dec (Rabs (a - e)) (Rabs (nth (closest r e) r 0 - e)) then 0%nat else S (closest r e)) by reflexivity.
    rewrite E. destruct (Rle_dec _ _) as [Hle|Hgt].
    + cbn [nth List.length]. split; [lia|]. constructor; [lra|]. eapply Forall_impl; [|exact F]. cbn beta. intros x Hx. lra.
    + cbn [nth List.length]. split; [lia|]. constructor; [lra|exact F].
Qed.
Definition between (axis : list R) (e : R) : Prop := (exists a, In a axis /\ a <= e) /\ (exists a, In a axis /\ e <= a).
Lemma fold_Rmin l d : (forall e, fold_right Rmin d l <= e <-> d <= e \/ exists a, In a l /\ a <= e).
Proof.
  induction l as [|a l IH]; intros e; cbn [fold_right].
  - split; [auto|]. intros [H|(a & [] & _)]. exact H.
  - unfold Rmin at 1. specialize (IH e). destruct (Rle_dec a (fold_right Rmin d l)); split.
    + intros H. right. exists a. split; [now left|exact H].
    + intros [H|(b & [->|Hb] & H)]; [|exact H|]; (eapply Rle_trans; [eassumption|]); apply IH; eauto.
    + intros H. apply IH in H. destruct H as [H|(b & Hb & H)]; [auto|]. right. exists b. split; [now right|exact H].
    + intros [H|(b & [->|Hb] & H)]; [apply IH; auto|lra|apply IH; eauto].
Qed.
Lemma fold_Rmax l d : (forall e, e <= fold_right Rmax d l <-> e <= d \/ exists a, In a l /\ e <= a).
Proof.
  induction l as [|a l IH]; intros e; cbn [fold_right].
  - split; [auto|]. intros [H|(a & [] & _)]. exact H.
  - unfold Rmax at 1. specialize (IH e). destruct (Rle_dec a (fold_right Rmax d l)); split.
    + intros H. apply IH in H. destruct H as [H|(b & Hb & H)]; [auto|]. right. exists b. split; [now right|exact H].
    + intros [H|(b & [->|Hb] & H)]; [apply IH; auto|lra|apply IH; eauto].
    + intros H. right. exists a. split; [now left|exact H].
    + intros [H|(b & [->|Hb] & H)]; [|exact H|]; apply Rnot_le_lt, Rlt_le in n; (eapply Rle_trans; [|exact n]); apply IH; eauto.
Qed.
Lemma value2index_spec axis e k : axis <> [] -> (value2index axis e = Some k -> (k < List.length axis)%nat /\ Forall (fun a => Rabs (nth k axis 0 - e) <= Rabs (a - e)) axis)
  /\ (value2index axis e = None <-> ~ between axis e).
Proof.
  intros H. unfold value2index.
  assert (L : low axis <= e <-> exists a, In a axis /\ a <= e).
  { unfold low. rewrite fold_Rmin. split; [|auto]. intros [G|G]; [|exact G]. destruct axis as [|a axis]; [easy|]. exists a. split; [now left|exact G]. }
  assert (U : e <= high axis <-> exists a, In a axis /\ e <= a).
  { unfold high. rewrite fold_Rmax. split; [|auto]. intros [G|G]; [|exact G]. destruct axis as [|a axis]; [easy|]. exists a. split; [now left|exact G]. }
  unfold between. destruct (Rle_dec (low axis) e), (Rle_dec e (high axis)); split; try discriminate; try tauto.
  - intros E. injection E as <-. now apply closest_spec.
  - split; [discriminate|tauto].
Qed.

(** Well-formed signals: as many patterns as hemispheres and energies *)
Definition well_formed (s : master_signal) : Prop :=
  List.length (patterns s) = (if (hemisphere s =? "both")%string then 2 else 1)%nat /\
  match energy_axis s with
  | Some axis => axis <> [] /\ Forall (fun l => List.length l = List.length axis) (patterns s)
  | None => Forall (fun l => List.length l = 1%nat) (patterns s)
  end.

(** Simulations use one energy for both hemispheres: the one closest to the requested one, the last if none
    is requested, and the only one if there is only one. Energies outside of the range are refused. *)
Theorem C71_closest_energy s axis energy : well_formed s -> energy_axis s = Some axis ->
  let e := match energy with Some e => e | None => last axis 0 end in
  (between axis e -> exists k upper lower, arrays_from_energy s energy = Some (upper, lower) /\
     (k < List.length axis)%nat /\ Forall (fun a => Rabs (nth k axis 0 - e) <= Rabs (a - e)) axis /\
     (exists es, nth_error (patterns s) 0 = Some es /\ nth_error es k = Some upper) /\
     (exists es, nth_error (patterns s) (if (hemisphere s =? "both")%string then 1 else 0) = Some es /\ nth_error es k = Some lower))
  /\ (~ between axis e -> arrays_from_energy s energy = None).
Proof.
  intros (Hh & Hw) Ha e. rewrite Ha in Hw. destruct Hw as [Hne Hf]. unfold arrays_from_energy. rewrite Ha. fold e.
  destruct (value2index_spec axis e 0 Hne) as [_ N]. split.
  - intros B. destruct (value2index axis e) as [k|] eqn:V; [|exfalso; now apply N].
    destruct (value2index_spec axis e k Hne) as [K _]. destruct (K V) as [K1 K2]. exists k.
    assert (G : forall es, In es (patterns s) -> nth_error es k = Some (nth k es (fun _ _ => 0))).
    { intros es Hin. rewrite Forall_forall in Hf. apply nth_error_nth'. now rewrite (Hf es Hin). }
    destruct (hemisphere s =? "both")%string.
    + destruct (patterns s) as [|u [|l [|]]]; try discriminate. cbn [map]. eexists. eexists. split; [reflexivity|]. split; [exact K1|]. split; [exact K2|].
      split; [exists u|exists l]; (split; [reflexivity|]); apply G; simpl; auto.
    + destruct (patterns s) as [|u [|]]; try discriminate. cbn [map]. eexists. eexists. split; [reflexivity|]. split; [exact K1|]. split; [exact K2|].
      split; exists u; (split; [reflexivity|]); apply G; simpl; auto.
  - intros B. apply N in B. now rewrite B.
Qed.
Theorem C71_highest_energy_by_default s axis : well_formed s -> energy_axis s = Some axis ->
  (forall i j, (i < j < List.length axis)%nat -> nth i axis 0 < nth j axis 0) ->
  exists upper lower, arrays_from_energy s None = Some (upper, lower) /\
    Forall (fun a => a <= nth (List.length axis - 1) axis 0) axis /\
    (exists es, nth_error (patterns s) 0 = Some es /\ nth_error es (List.length axis - 1) = Some upper) /\
    (exists es, nth_error (patterns s) (if (hemisphere s =? "both")%string then 1 else 0) = Some es /\ nth_error es (List.length axis - 1) = Some lower).
Proof.
  intros Hw Ha Hs. assert (Hne : axis <> []) by (destruct Hw as [_ Hw]; rewrite Ha in Hw; apply Hw).
  assert (E : last axis 0 = nth (List.length axis - 1) axis 0).
  { clear - Hne. induction axis as [|a [|b axis] IH]; [easy|reflexivity|]. change (last (a :: b :: axis) 0) with (last (b :: axis) 0). rewrite IH by easy. replace (List.length (a :: b :: axis) - 1)%nat with (S (List.length (b :: axis) - 1)) by (cbn [List.length]; lia). reflexivity. }
  assert (Hlen : (0 < List.length axis)%nat) by (destruct axis; simpl; [easy|lia]).
  assert (F : Forall (fun a => a <= nth (List.length axis - 1) axis 0) axis).
  { apply Forall_forall. intros a Hin. apply (In_nth _ _ 0) in Hin. destruct Hin as (i & Hi & <-).
    destruct (Nat.eq_dec i (List.length axis - 1)) as [->|]; [lra|]. left. apply Hs. lia. }
  destruct (C71_closest_energy s axis None Hw Ha) as [C _]. cbv zeta in C. rewrite E in C.
  assert (Hin : In (nth (List.length axis - 1) axis 0) axis) by (apply nth_In; lia).
  destruct C as (k & u & l & A & K1 & K2 & U & L).
  - split; exists (nth (List.length axis - 1) axis 0); (split; [exact Hin|lra]).
  - assert (k = List.length axis - 1)%nat.
    { rewrite Forall_forall in K2. specialize (K2 _ Hin). replace (nth (List.length axis - 1) axis 0 - nth (List.length axis - 1) axis 0) with 0 in K2 by ring. rewrite Rabs_R0 in K2.
      destruct (Nat.eq_dec k (List.length axis - 1)); [assumption|]. assert (nth k axis 0 < nth (List.length axis - 1) axis 0) by (apply Hs; lia).
      rewrite Rabs_left in K2 by lra. lra. }
    subst k. exists u, l. auto.
Qed.
Theorem C71_only_energy s energy : well_formed s -> energy_axis s = None ->
  exists upper lower, arrays_from_energy s energy = Some (upper, lower) /\ nth_error (patterns s) 0 = Some [upper] /\
    nth_error (patterns s) (if (hemisphere s =? "both")%string then 1 else 0) = Some [lower].
Proof.
  intros (Hh & Hw) Ha. rewrite Ha in Hw. unfold arrays_from_energy. rewrite Ha.
  assert (G : forall es : list image, In es (patterns s) -> es = [nth 0 es (fun _ _ => 0)]).
  { intros es Hin. rewrite Forall_forall in Hw. specialize (Hw es Hin). destruct es as [|x [|]]; try discriminate. reflexivity. }
  destruct (hemisphere s =? "both")%string.
  - destruct (patterns s) as [|u [|l [|]]]; try discriminate. cbn [map]. eexists. eexists. split; [reflexivity|].
    cbn [nth_error]. split; f_equal; apply G; simpl; auto.
  - destruct (patterns s) as [|u [|]]; try discriminate. cbn [map]. eexists. eexists. split; [reflexivity|].
    cbn [nth_error]. split; f_equal; apply G; simpl; auto.
Qed.

(** *** Hemispheres.  Simulations need a Lambert pattern of a phase with a point group, and both hemispheres
    unless the point group has inversion. *)
Theorem C71_suitable_iff s : suitable s = true <->
  projection s = "lambert"%string /\ (point_group_inversion s = Some true \/ (point_group_inversion s = Some false /\ hemisphere s = "both"%string)).
Proof.
  unfold suitable. destruct (String.eqb_spec (projection s) "lambert"), (point_group_inversion s) as [[|]|], (String.eqb_spec (hemisphere s) "both"); cbn; split; try discriminate; try tauto; intros (? & [H|[H ?]]); try discriminate; try contradiction.
Qed.

(** The intensities f of directions, shown by the images of the two hemispheres *)
Definition shows_above (n : nat) (f : vec -> R) (values : image) : Prop :=
  forall row col v, (row < n)%nat -> (col < n)%nat -> lambert_direction n row col v -> values row col = f v.
Definition shows_below (n : nat) (f : vec -> R) (values : image) : Prop :=
  forall row col v, (row < n)%nat -> (col < n)%nat -> lambert_direction n row col v -> values row col = f (below v).

Lemma lookup_ext n f g v : (2 <= n)%nat -> nonzero v ->
  (forall row col, (row < n)%nat -> (col < n)%nat -> f row col = g row col) ->
  let l := interpolation_parameters (Z.of_nat n) (Z.of_nat n) ((IZR (Z.of_nat n) - 1) / 2) v in
  interpolate (fun r c => f (Z.to_nat r) (Z.to_nat c)) l = interpolate (fun r c => g (Z.to_nat r) (Z.to_nat c)) l.
Proof.
  intros Hn Hv H l. destruct (C37_reads_inside_with_valid_weights (Z.of_nat n) ltac:(lia) v Hv) as (A & B & C & D & _). fold l in A, B, C, D.
  unfold interpolate. rewrite !H by lia. reflexivity.
Qed.
(** With both hemispheres, simulated patterns have the intensities of the directions that pixels show, in
    both hemispheres. *)
Lemma hit n upper lower row col v : (2 <= n)%nat -> (row < n)%nat -> (col < n)%nat -> lambert_direction n row col v ->
  pixel_from_master_pattern upper lower (Z.of_nat n) v = upper (Z.of_nat row) (Z.of_nat col).
Proof.
  intros Hn Hr Hc D.
  pose proof (C37_exact_hit (Z.of_nat n) ltac:(lia) upper lower (Z.of_nat row) (Z.of_nat col) 1 ltac:(lia) ltac:(lra) ltac:(lia) ltac:(lia)) as P. cbv zeta in P.
  assert (G : forall k, (IZR (Z.of_nat k) - (IZR (Z.of_nat n) - 1) / 2) / ((IZR (Z.of_nat n) - 1) / 2) = place n k).
  { intros k. unfold place. rewrite <- !INR_IZR_INZ. rewrite minus_INR by lia. change (INR 1) with 1.
    assert (2 <= INR n) by (change 2 with (INR 2); now apply le_INR). field. lra. }
  rewrite !G in P. rewrite (lambert_direction_unique _ _ _ _ _ (lambert_direction_exists _ _ _ Hn Hr Hc) D), !Rmult_1_l in P.
  rewrite <- P. destruct v as [x y z]. reflexivity.
Qed.
Theorem C71_both_hemispheres s energy upper lower f row col v :
  suitable s = true -> hemisphere s = "both"%string -> arrays_from_energy s energy = Some (upper, lower) -> (2 <= size s)%nat ->
  shows_above (size s) f upper -> shows_below (size s) f lower ->
  (row < size s)%nat -> (col < size s)%nat -> lambert_direction (size s) row col v ->
  simulated_pixel s energy v = Some (f v) /\ (0 < vz v -> simulated_pixel s energy (below v) = Some (f (below v))).
Proof.
  intros Hs Hb Ha Hn Hu Hl Hr Hc D. unfold simulated_pixel. rewrite Hs, Ha. split; [|intros Hz]; f_equal.
  - rewrite (hit (size s) _ _ row col v) by assumption. rewrite !Nat2Z.id. now apply Hu.
  - unfold below at 1. rewrite C37_lower_hemisphere by assumption. rewrite (hit (size s) _ _ row col v) by assumption. rewrite !Nat2Z.id. now apply Hl.
Qed.
(** With one hemisphere the result is right for centrosymmetric intensities with a two-fold axis along the
    crystal's z axis (equivalently, a mirror plane normal to it). *)
Theorem C71_one_hemisphere_partial n f upper upper' lower' v : (2 <= n)%nat -> v <> Vec 0 0 0 ->
  (forall w, f (negated w) = f w) -> (forall w, f (Vec (- vx w) (- vy w) (vz w)) = f w) ->
  shows_above n f upper -> shows_above n f upper' -> shows_below n f lower' ->
  let at_pixel (m : image) := fun r c => m (Z.to_nat r) (Z.to_nat c) in
  pixel_from_master_pattern (at_pixel upper) (at_pixel upper) (Z.of_nat n) v
  = pixel_from_master_pattern (at_pixel upper') (at_pixel lower') (Z.of_nat n) v.
Proof.
  intros Hn Hv Hi H2 Hu Hu' Hl' at_pixel.
  assert (Hm : forall w, f (below w) = f w).
  { intros w. rewrite <- (Hi (below w)). rewrite <- (H2 w). f_equal. unfold negated, below. cbn [vx vy vz]. f_equal. ring. }
  assert (E1 : forall row col, (row < n)%nat -> (col < n)%nat -> upper row col = upper' row col).
  { intros row col Hr Hc. pose proof (lambert_direction_exists n row col Hn Hr Hc) as D. now rewrite (Hu row col _ Hr Hc D), (Hu' row col _ Hr Hc D). }
  assert (E2 : forall row col, (row < n)%nat -> (col < n)%nat -> upper row col = lower' row col).
  { intros row col Hr Hc. pose proof (lambert_direction_exists n row col Hn Hr Hc) as D. now rewrite (Hu row col _ Hr Hc D), (Hl' row col _ Hr Hc D), Hm. }
  assert (Nv : nonzero v).
  { unfold nonzero. destruct v as [x y z]. cbn [vx vy vz]. destruct (Req_dec x 0) as [->|]; [|auto]. destruct (Req_dec y 0) as [->|]; [|auto]. right. right. intros ->. now apply Hv. }
  unfold pixel_from_master_pattern. cbv zeta. unfold at_pixel. destruct (Rle_dec 0 (vz v)); apply lookup_ext; auto.
Qed.
(** Without such an axis it is wrong, although the signal is accepted: the point groups -1, 2/m (axis along y), -3 and -3m. Here,
    the band of the plane (101) of a crystal with inversion: one pixel below the equator shows it with both
    hemispheres and does not with one. *)
Definition tilted : plane := Plane (Vec 1 0 1) (PI / 6) 1.
Definition tilted_band (v : vec) : R := band_intensity [tilted] v.
Lemma tilted_band_inversion w : tilted_band (negated w) = tilted_band w.
Proof.
  unfold tilted_band, band_intensity. cbn [map total fold_right].
  assert (E : Rabs (elevation tilted (negated w)) = Rabs (elevation tilted w)).
  { unfold elevation. replace (dot3 (normal tilted) (negated w)) with (- dot3 (normal tilted) w) by (unfold dot3, negated; cbn [vx vy vz]; ring).
    rewrite <- Rabs_Ropp. f_equal. unfold Rdiv. ring. }
  unfold in_band_dec, in_band. rewrite E. reflexivity.
Qed.
Lemma half_way : let v := lambert2vector (1 / 2) 0 in vy v = 0 /\ vz v = 3 / 4 /\ 0 < vx v /\ vx v * vx v = 7 / 16.
Proof.
  cbv zeta. destruct (lambert2vector_unit (1 / 2) 0 ltac:(lra) ltac:(lra)) as [N _].
  assert (E : vy (lambert2vector (1 / 2) 0) = 0 /\ vz (lambert2vector (1 / 2) 0) = 3 / 4 /\ 0 < vx (lambert2vector (1 / 2) 0)).
  { unfold lambert2vector. destruct sqrt_PI2 as [Q1 Q2]. pose proof PI_RGT_0 as P0. rewrite Rmult_0_l, Rabs_R0.
    set (x := 1 / 2 * sqrt (PI / 2)). assert (X : x * x = PI / 8) by (unfold x; replace (1 / 2 * sqrt (PI / 2) * (1 / 2 * sqrt (PI / 2))) with (1 / 4 * (sqrt (PI / 2) * sqrt (PI / 2))) by field; rewrite Q2; lra).
    assert (Xp : 0 < x) by (unfold x; lra). rewrite Rabs_right by lra. rewrite Rmax_left by lra.
    destruct (Req_EM_T x 0); [lra|]. destruct (Rle_dec x 0); [lra|]. cbn [vx vy vz].
    replace (0 * PI * (1 / 4) / x) with 0 by (field; lra). rewrite sin_0, cos_0, X. split; [ring|]. split; [field; lra|].
    apply Rmult_lt_0_compat; [|lra]. apply Rdiv_lt_0_compat; [|lra]. apply Rmult_lt_0_compat; [lra|]. apply sqrt_lt_R0. lra. }
  destruct E as (E1 & E2 & E3). rewrite E1, E2 in N. repeat split; auto. lra.
Qed.
Theorem C71_one_hemisphere_refuted :
  ~ (forall n f upper upper' lower' v s s' energy, (2 <= n)%nat -> v <> Vec 0 0 0 ->
       (forall w, f (negated w) = f w) ->
       shows_above n f upper -> shows_above n f upper' -> shows_below n f lower' ->
       s = MasterSignal [[upper]] n None "upper" "lambert" false (Some true) ->
       s' = MasterSignal [[upper']; [lower']] n None "both" "lambert" false (Some true) ->
       simulated_pixel s energy v = simulated_pixel s' energy v).
Proof.
  intros H. pose proof half_way as W. cbv zeta in W. set (w := lambert2vector (1 / 2) 0) in *. destruct W as (W1 & W2 & W3 & W4).
  set (up := fun row col => tilted_band (lambert2vector (place 5 col) (place 5 row))).
  set (lo := fun row col => tilted_band (below (lambert2vector (place 5 col) (place 5 row)))).
  assert (A : shows_above 5 tilted_band up).
  { intros row col v Hr Hc D. unfold up. now rewrite (lambert_direction_unique 5 row col _ _ (lambert_direction_exists 5 row col ltac:(lia) Hr Hc) D). }
  assert (B : shows_below 5 tilted_band lo).
  { intros row col v Hr Hc D. unfold lo. now rewrite (lambert_direction_unique 5 row col _ _ (lambert_direction_exists 5 row col ltac:(lia) Hr Hc) D). }
  specialize (H 5%nat tilted_band up up lo (below w)
    (MasterSignal [[up]] 5 None "upper" "lambert" false (Some true)) (MasterSignal [[up]; [lo]] 5 None "both" "lambert" false (Some true)) None).
  specialize (H ltac:(lia)). 
  assert (Hne : below w <> Vec 0 0 0). { intros E. apply (f_equal vx) in E. unfold below in E. cbn [vx] in E. lra. }
  specialize (H Hne tilted_band_inversion A A B eq_refl eq_refl).
  unfold simulated_pixel, suitable, arrays_from_energy in H. cbn [projection hemisphere point_group_inversion energy_axis patterns size map nth String.eqb Ascii.eqb Bool.eqb andb orb] in H.
  injection H as H. unfold below in H. rewrite !C37_lower_hemisphere in H by lra.
  assert (X : forall a b, pixel_from_master_pattern a b (Z.of_nat 5) w = a 2%Z 3%Z).
  { intros a b. pose proof (C37_exact_hit (Z.of_nat 5) ltac:(lia) a b 2 3 1 ltac:(lia) ltac:(lra) ltac:(lia) ltac:(lia)) as P. cbv zeta in P.
    change (Z.of_nat 5) with 5%Z in *.
    replace ((3 - (5 - 1) / 2) / ((5 - 1) / 2)) with (1 / 2) in P by field. replace ((2 - (5 - 1) / 2) / ((5 - 1) / 2)) with 0 in P by field. fold w in P.
    rewrite !Rmult_1_l in P. rewrite <- P. f_equal. destruct w as [x y z]. reflexivity. }
  rewrite !X in H. change (Z.to_nat 2) with 2%nat in H. change (Z.to_nat 3) with 3%nat in H. unfold up, lo in H.
  assert (P3 : place 5 3 = 1 / 2) by (unfold place; simpl; field). assert (P2 : place 5 2 = 0) by (unfold place; simpl; field).
  rewrite P3, P2 in H. fold w in H.
  assert (L : length3 (normal tilted) * length3 (normal tilted) = 2 /\ 0 < length3 (normal tilted)).
  { unfold length3, tilted, dot3. cbn [normal vx vy vz]. replace (1 * 1 + 0 * 0 + 1 * 1) with 2 by ring. split; [apply sqrt_sqrt; lra|apply sqrt_lt_R0; lra]. }
  destruct L as [L1 L2].
  assert (V1 : tilted_band w = 0).
  { unfold tilted_band, band_intensity. cbn [map total fold_right]. unfold in_band_dec, in_band. cbn [bragg tilted]. rewrite sin_PI6.
    destruct (Rle_dec _ _) as [Hle|]; [|simpl; lra]. exfalso. unfold elevation in Hle.
    assert (D : dot3 (normal tilted) w = vx w + 3 / 4) by (unfold dot3, tilted; cbn [normal vx vy vz]; rewrite W1, W2; ring). rewrite D in Hle.
    assert (Q : (vx w + 3 / 4) / length3 (normal tilted) * length3 (normal tilted) = vx w + 3 / 4) by (field; lra).
    set (q := (vx w + 3 / 4) / length3 (normal tilted)) in *. assert (0 < q) by (unfold q; apply Rdiv_lt_0_compat; lra). rewrite Rabs_right in Hle by lra.
    set (l := length3 (normal tilted)) in *. assert (1 < l) by nra. assert (l < 3 / 2) by nra. nra. }
  assert (V2 : tilted_band (below w) = 1).
  { unfold tilted_band, band_intensity. cbn [map total fold_right]. unfold in_band_dec, in_band. cbn [bragg tilted]. rewrite sin_PI6.
    destruct (Rle_dec _ _) as [|Hgt]; [simpl; lra|]. exfalso. apply Hgt. unfold elevation.
    assert (D : dot3 (normal tilted) (below w) = vx w - 3 / 4) by (unfold dot3, tilted, below; cbn [normal vx vy vz]; rewrite W1, W2; ring). rewrite D.
    assert (Q : (vx w - 3 / 4) / length3 (normal tilted) * length3 (normal tilted) = vx w - 3 / 4) by (field; lra).
    set (q := (vx w - 3 / 4) / length3 (normal tilted)) in *. set (l := length3 (normal tilted)) in *. assert (1 < l) by nra.
    assert (1 / 2 < vx w) by nra. assert (vx w < 3 / 4) by nra. apply Rabs_le. split; nra. }
  rewrite V1, V2 in H. lra.
Qed.
Print Assumptions C71_one_hemisphere_refuted.

(** Examples *)
Example lambert_example : exists s', as_lambert (fun n values xi => fst xi + 10 * snd xi) (MasterSignal [[fun _ _ => 0]] 3 None "upper" "stereographic" false (Some true)) = Some s'
  /\ exists es m, nth_error (patterns s') 0 = Some es /\ nth_error es 0 = Some m /\ m 1%nat 1%nat = 11.
Proof.
  eexists. split; [reflexivity|]. eexists. eexists. split; [reflexivity|]. split; [reflexivity|]. cbn beta. cbn [size]. unfold xi, linspace.
  replace (-1 + INR 1 * (2 / INR (3 - 1))) with 0 by (simpl; field).
  assert (E : lambert2vector 0 0 = Vec 0 0 1).
  { unfold lambert2vector. rewrite Rmult_0_l, Rabs_R0, Rmax_left by lra. destruct (Req_EM_T 0 0); [reflexivity|lra]. }
  rewrite E. unfold vector2xy. cbn [vx vy vz fst snd]. field.
Qed.
Example energy_example : well_formed (MasterSignal [[fun _ _ => 10; fun _ _ => 11; fun _ _ => 12]; [fun _ _ => 0; fun _ _ => 1; fun _ _ => 2]] 3 (Some [10; 11; 12]) "both" "lambert" false (Some true))
  /\ between [10; 11; 12] (112 / 10).
Proof.
  split; [split; [reflexivity|split; [easy|repeat constructor]]|]. split; [exists 10|exists 12]; (split; [simpl; auto|lra]).
Qed.
