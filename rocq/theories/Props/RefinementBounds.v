(** C40, C56: bounds and initial steps of refinements. *)
From Coq Require Import List Reals Lra Lia Arith.
From Verif Require Import Model.RefinementBounds.
Import ListNotations.
Local Open Scope R_scope.

(** Number of control variables, and the documented meaning of a trust region: degrees for Euler angles (in radians),
    fractions for PC components. *)
Definition dims (m : mode) : nat := match m with OriPc => 6 | _ => 3 end.
Definition is_angle (m : mode) (i : nat) : bool := match m with Ori => true | Pc => false | OriPc => (i <? 3)%nat end.
Definition documented (m : mode) (v : list R) (i : nat) : R := if is_angle m i then nth i v 0 * PI / 180 else nth i v 0.
(** Documented limits of the variables: [0, 360], [0, 180], [0, 360] degrees with 5 degrees more, and [-2, 2]. *)
Definition limits (m : mode) (i : nat) : R * R :=
  if is_angle m i then match i with 1%nat => (- 5 * PI / 180, 185 * PI / 180) | _ => (- 5 * PI / 180, 365 * PI / 180) end else (-2, 2).
Definition inside (m : mode) (x : list R) : Prop :=
  length x = dims m /\ forall i, (i < dims m)%nat -> fst (limits m i) <= nth i x 0 <= snd (limits m i).
Definition valid (m : mode) (t : argument) : Prop := length (values t) = dims m /\ forall i, (i < dims m)%nat -> 0 <= nth i (values t) 0.

Lemma zip3_nth : forall f a b c i, (i < length a)%nat -> length b = length a -> length c = length a ->
  nth i (zip3 f a b c) 0 = f (nth i a 0) (nth i b 0) (nth i c 0).
Proof.
  intros f. unfold zip3. induction a as [|x a IH]; intros [|y b] [|z c] i H B C; cbn [length] in *; try lia.
  destruct i as [|i]; cbn [combine map nth fst snd]; [reflexivity|]. apply IH; lia.
Qed.
Lemma zip3_length : forall f a b c, length b = length a -> length c = length a -> length (zip3 f a b c) = length a.
Proof. intros. unfold zip3. rewrite map_length, !combine_length. lia. Qed.

Lemma lower_abs_nth : forall m i, (i < dims m)%nat -> nth i (lower_abs m) 0 = fst (limits m i).
Proof.
  intros m i H. destruct m; cbn [dims] in H; do 6 (destruct i as [|i]; [first [exfalso; lia | cbn; unfold leeway, deg2rad; lra]|]); lia.
Qed.
Lemma upper_abs_nth : forall m i, (i < dims m)%nat -> nth i (upper_abs m) 0 = snd (limits m i).
Proof.
  intros m i H. destruct m; cbn [dims] in H; do 6 (destruct i as [|i]; [first [exfalso; lia | cbn; unfold leeway, deg2rad; lra]|]); lia.
Qed.
Lemma lower_abs_length : forall m, length (lower_abs m) = dims m. Proof. now destruct m. Qed.
Lemma upper_abs_length : forall m, length (upper_abs m) = dims m. Proof. now destruct m. Qed.

Lemma six : forall {A} (l : list A), length l = 6%nat -> exists a b c d e f, l = [a; b; c; d; e; f].
Proof. intros A [|a [|b [|c [|d [|e [|f [|? ?]]]]]]]; cbn [length]; intros H; try lia. eauto 8. Qed.
Lemma three : forall {A} (l : list A), length l = 3%nat -> exists a b c, l = [a; b; c].
Proof. intros A [|a [|b [|c [|? ?]]]]; cbn [length]; intros H; try lia. eauto. Qed.
Lemma used_length : forall m t, length (values t) = dims m -> length (used m t) = dims m.
Proof.
  intros m t H. destruct m; cbn [used dims] in *; [now rewrite map_length|exact H|].
  rewrite app_length, map_length, firstn_length, skipn_length. lia.
Qed.
Lemma used_nth : forall m t i, length (values t) = dims m -> (i < dims m)%nat ->
  nth i (used m t) 0 = if is_angle m i then
    (match m with OriPc => if is_integer t then trunc (deg2rad (nth i (values t) 0)) else deg2rad (nth i (values t) 0) | _ => deg2rad (nth i (values t) 0) end)
    else nth i (values t) 0.
Proof.
  intros m [v ia ii] i H L. cbn [values is_integer] in *. destruct m; cbn [dims] in *.
  - apply three in H as (a & b & c & ->). do 3 (destruct i as [|i]; [reflexivity|]). lia.
  - reflexivity.
  - apply six in H as (a & b & c & d & e & f & ->). do 6 (destruct i as [|i]; [cbn; destruct ii; reflexivity|]). lia.
Qed.
Lemma trunc_nonneg : forall x, 0 <= x -> 0 <= trunc x <= x.
Proof.
  intros x H. unfold trunc. destruct (Rle_dec 0 x); [|contradiction]. pose proof (base_Int_part x) as [B1 B2]. split; [|exact B1].
  assert (G : (-1 < Int_part x)%Z) by (apply lt_IZR; lra). apply (IZR_le 0). lia.
Qed.
Lemma deg2rad_nonneg : forall x, 0 <= x -> 0 <= deg2rad x.
Proof. intros x H. unfold deg2rad. pose proof PI_RGT_0. apply Rmult_le_pos; lra. Qed.
Lemma used_range : forall m t i, valid m t -> (i < dims m)%nat -> 0 <= nth i (used m t) 0 <= documented m (values t) i.
Proof.
  intros m t i [H V] L. rewrite used_nth by assumption. specialize (V i L). unfold documented.
  assert (E : nth i (values t) 0 * PI / 180 = deg2rad (nth i (values t) 0)) by (unfold deg2rad; lra). rewrite E.
  pose proof (deg2rad_nonneg _ V) as D.
  destruct (is_angle m i); [|lra]. destruct m; [lra|lra|]. destruct (is_integer t); [|lra]. pose proof (trunc_nonneg _ D). lra.
Qed.

Lemma lower_nth : forall m x t i, length x = dims m -> length (values t) = dims m -> (i < dims m)%nat ->
  nth i (lower_bounds m x t) 0 = Rmax (nth i x 0 - nth i (used m t) 0) (fst (limits m i)).
Proof.
  intros. unfold lower_bounds. rewrite zip3_nth; [|lia|rewrite used_length; lia|rewrite lower_abs_length; lia]. now rewrite lower_abs_nth.
Qed.
Lemma upper_nth : forall m x t i, length x = dims m -> length (values t) = dims m -> (i < dims m)%nat ->
  nth i (upper_bounds m x t) 0 = Rmin (nth i x 0 + nth i (used m t) 0) (snd (limits m i)).
Proof.
  intros. unfold upper_bounds. rewrite zip3_nth; [|lia|rewrite used_length; lia|rewrite upper_abs_length; lia]. now rewrite upper_abs_nth.
Qed.

(** The starting point is within the bounds and the bounds are within the trust region and the limits, however the trust
    region is passed. *)
Theorem C40_start_in_bounds_in_trust_region : forall m x t i, inside m x -> valid m t -> (i < dims m)%nat ->
  let l := nth i (lower_bounds m x t) 0 in let u := nth i (upper_bounds m x t) 0 in
  length (lower_bounds m x t) = dims m /\ length (upper_bounds m x t) = dims m /\
  l <= nth i x 0 <= u /\ nth i x 0 - documented m (values t) i <= l /\ u <= nth i x 0 + documented m (values t) i /\
  fst (limits m i) <= l /\ u <= snd (limits m i).
Proof.
  intros m x t i [LX IN] V L. pose proof V as [LV _]. cbv zeta. rewrite lower_nth, upper_nth by assumption.
  specialize (IN i L). pose proof (used_range m t i V L) as U.
  split; [unfold lower_bounds; rewrite zip3_length; [exact LX|rewrite used_length; lia|rewrite lower_abs_length; lia]|].
  split; [unfold upper_bounds; rewrite zip3_length; [exact LX|rewrite used_length; lia|rewrite upper_abs_length; lia]|].
  pose proof (Rmax_l (nth i x 0 - nth i (used m t) 0) (fst (limits m i))).
  pose proof (Rmax_r (nth i x 0 - nth i (used m t) 0) (fst (limits m i))).
  pose proof (Rmin_l (nth i x 0 + nth i (used m t) 0) (snd (limits m i))).
  pose proof (Rmin_r (nth i x 0 + nth i (used m t) 0) (snd (limits m i))).
  split; [split; [apply Rmax_lub; lra|apply Rmin_glb; lra]|]. repeat split; lra.
Qed.

(** They are exactly the trust region cut off at the limits, except for integers when refining both orientations and PCs. *)
Theorem C40_bounds_are_trust_region_partial : forall m x t i, inside m x -> valid m t -> (i < dims m)%nat ->
  m <> OriPc \/ is_integer t = false ->
  nth i (lower_bounds m x t) 0 = Rmax (nth i x 0 - documented m (values t) i) (fst (limits m i)) /\
  nth i (upper_bounds m x t) 0 = Rmin (nth i x 0 + documented m (values t) i) (snd (limits m i)).
Proof.
  intros m x t i [LX _] [LV _] L O. rewrite lower_nth, upper_nth, used_nth by assumption. unfold documented.
  replace (nth i (values t) 0 * PI / 180) with (deg2rad (nth i (values t) 0)) by (unfold deg2rad; lra).
  destruct (is_angle m i) eqn:A; [|auto]. destruct m; [auto|auto|]. destruct O as [O|O]; [congruence|]. rewrite O. auto.
Qed.

(** A wider trust region gives wider bounds. *)
Theorem C40_wider_trust_region : forall m x t t' i, inside m x -> valid m t -> valid m t' -> (i < dims m)%nat ->
  m <> OriPc \/ is_integer t' = false -> nth i (values t) 0 <= nth i (values t') 0 ->
  nth i (lower_bounds m x t') 0 <= nth i (lower_bounds m x t) 0 /\ nth i (upper_bounds m x t) 0 <= nth i (upper_bounds m x t') 0.
Proof.
  intros m x t t' i IN V V' L O W. destruct (C40_bounds_are_trust_region_partial m x t' i IN V' L O) as [-> ->].
  pose proof IN as [LX _]. pose proof V as [LV _]. rewrite lower_nth, upper_nth by assumption.
  pose proof (used_range m t i V L) as [_ U].
  assert (D : documented m (values t) i <= documented m (values t') i).
  { unfold documented. pose proof PI_RGT_0. destruct (is_angle m i); [|exact W]. unfold Rdiv. apply Rmult_le_compat_r; [lra|]. apply Rmult_le_compat_r; lra. }
  split.
  - apply Rmax_lub; [|apply Rmax_r]. apply Rle_trans with (nth i x 0 - nth i (used m t) 0); [lra|apply Rmax_l].
  - apply Rmin_glb; [|apply Rmin_r]. apply Rle_trans with (nth i x 0 + nth i (used m t) 0); [apply Rmin_l|lra].
Qed.

(** The caller's argument is kept, except for an array when refining both. *)
Theorem C40_argument_kept_partial : forall m t, m <> OriPc \/ is_array t = false -> after m t = t.
Proof. intros m t [H|H]; destruct m; cbn [after]; try reflexivity; [congruence|]. now rewrite H. Qed.

(** An array passed there is overwritten with radians, so repeating the call narrows the bounds on the angles. *)
Theorem C40_array_changed_refuted : forall x t i, inside OriPc x -> valid OriPc t -> is_array t = true -> is_integer t = false ->
  (i < 3)%nat -> 0 < nth i (values t) 0 -> fst (limits OriPc i) <= nth i x 0 - documented OriPc (values t) i ->
  nth i (values (after OriPc t)) 0 < nth i (values t) 0 /\
  nth i (lower_bounds OriPc x t) 0 < nth i (lower_bounds OriPc x (after OriPc t)) 0.
Proof.
  intros x t i IN V A I L P Q. pose proof IN as [LX _]. pose proof V as [LV _].
  assert (LT : (i < dims OriPc)%nat) by (cbn; lia).
  assert (AN : is_angle OriPc i = true) by (apply Nat.ltb_lt; exact L).
  assert (S : deg2rad (nth i (values t) 0) < nth i (values t) 0).
  { unfold deg2rad. pose proof PI_4. rewrite <- (Rmult_1_r (nth i (values t) 0)) at 2. apply Rmult_lt_compat_l; lra. }
  assert (U : nth i (values (after OriPc t)) 0 = deg2rad (nth i (values t) 0)).
  { cbn [after]. rewrite A. cbn [values]. rewrite used_nth by assumption. rewrite AN, I. reflexivity. }
  assert (LA : length (values (after OriPc t)) = dims OriPc).
  { cbn [after]. rewrite A. cbn [values]. now apply used_length. }
  rewrite U. split; [exact S|].
  rewrite !lower_nth by assumption. rewrite !used_nth by assumption. rewrite AN, U.
  replace (is_integer (after OriPc t)) with false by (cbn [after]; rewrite A; cbn [is_integer]; congruence). rewrite I.
  assert (D : documented OriPc (values t) i = deg2rad (nth i (values t) 0)) by (unfold documented; rewrite AN; unfold deg2rad; lra).
  rewrite D in Q.
  assert (S2 : deg2rad (deg2rad (nth i (values t) 0)) < deg2rad (nth i (values t) 0)).
  { unfold deg2rad at 1 3. apply Rmult_lt_compat_r; [pose proof PI_RGT_0; lra|exact S]. }
  rewrite Rmax_left by exact Q. eapply Rlt_le_trans; [|apply Rmax_l]. lra.
Qed.

(** Integers up to 44 degrees become 0 there: the orientation cannot change at all. *)
Theorem C40_integers_refuted : forall x t i, inside OriPc x -> valid OriPc t -> is_integer t = true ->
  (i < 3)%nat -> nth i (values t) 0 <= 44 ->
  nth i (lower_bounds OriPc x t) 0 = nth i x 0 /\ nth i (upper_bounds OriPc x t) 0 = nth i x 0.
Proof.
  intros x t i IN V I L B. pose proof IN as [LX LI]. pose proof V as [LV VV].
  assert (LT : (i < dims OriPc)%nat) by (cbn; lia).
  assert (AN : is_angle OriPc i = true) by (apply Nat.ltb_lt; exact L).
  rewrite lower_nth, upper_nth, used_nth by assumption. rewrite AN, I.
  assert (ZE : trunc (deg2rad (nth i (values t) 0)) = 0).
  { specialize (VV i LT). pose proof (deg2rad_nonneg _ VV) as D. unfold trunc. destruct (Rle_dec 0 _); [|contradiction].
    assert (D1 : deg2rad (nth i (values t) 0) < 1).
    { unfold deg2rad. pose proof PI_4. pose proof PI_RGT_0. apply Rle_lt_trans with (44 * (4 / 180)); [|lra].
      apply Rmult_le_compat; lra. }
    pose proof (base_Int_part (deg2rad (nth i (values t) 0))) as [B1 B2].
    assert (G1 : (-1 < Int_part (deg2rad (nth i (values t) 0%R)))%Z) by (apply lt_IZR; lra).
    assert (G2 : (Int_part (deg2rad (nth i (values t) 0%R)) < 1)%Z) by (apply lt_IZR; lra).
    assert (EZ : Int_part (deg2rad (nth i (values t) 0)) = 0%Z) by lia. rewrite EZ. reflexivity. }
  rewrite ZE. specialize (LI i LT). split; [rewrite Rmax_left; lra|rewrite Rmin_left; lra].
Qed.

(** C56: initial steps of PCs are used as given, but those of Euler angles, documented in degrees, are used as radians. *)
Theorem C56_initial_step_pc : forall s, initial_steps Pc [s] = Some [s; s; s].
Proof. reflexivity. Qed.
Theorem C56_wrong_number_of_steps : forall m s, length s <> (match m with OriPc => 2 | _ => 1 end)%nat -> initial_steps m s = None.
Proof. intros m s H. unfold initial_steps. apply Nat.eqb_neq in H. now rewrite H. Qed.
Theorem C56_initial_step_in_degrees_refuted : forall s p, s <> 0 ->
  initial_steps Ori [s] <> Some [s * PI / 180; s * PI / 180; s * PI / 180] /\
  initial_steps OriPc [s; p] <> Some [s * PI / 180; s * PI / 180; s * PI / 180; p; p; p] /\
  initial_steps Ori [s] = Some [s; s; s] /\ initial_steps OriPc [s; p] = Some [s; s; s; p; p; p].
Proof.
  intros s p N. assert (D : s <> s * PI / 180).
  { intros E. apply N. pose proof PI_4. assert (X : s * (180 - PI) = 0) by lra. apply Rmult_integral in X as [X|X]; [exact X|lra]. }
  unfold initial_steps. cbn. repeat split; intros E; injection E as E; contradiction.
Qed.

(** A start and trust regions that meet the conditions. *)
Example C40_case : inside OriPc [1; 1; 1; 1/2; 1/2; 1/2] /\ valid OriPc (Argument [2; 2; 2; 1/20; 1/20; 1/20] true false)
  /\ fst (limits OriPc 0) <= 1 - documented OriPc [2; 2; 2; 1/20; 1/20; 1/20] 0.
Proof.
  pose proof PI_4. pose proof PI2_3_2. split; [|split].
  - split; [reflexivity|]. intros i L. cbn [dims] in L. do 6 (destruct i as [|i]; [cbn; lra|]). lia.
  - split; [reflexivity|]. intros i L. cbn [dims] in L. do 6 (destruct i as [|i]; [cbn; lra|]). lia.
  - cbn. lra.
Qed.
Example C40_case_integer : valid OriPc (Argument [2; 2; 2; 1; 1; 1] false true).
Proof. split; [reflexivity|]. intros i L. cbn [dims] in L. do 6 (destruct i as [|i]; [cbn; lra|]). lia. Qed.

(** C58: the starting point is allowed by the bounds an optimiser gets. *)
Definition feasible (m : mode) (x : list R) (b : option (list R * list R)) : Prop :=
  match b with None => True | Some (l, u) => forall i, (i < dims m)%nat -> nth i l 0 <= nth i x 0 <= nth i u 0 end.
Theorem C58_start_feasible_partial : forall k m x t, inside m x ->
  match t with Some t => valid m t | None => k = Minimize \/ k = LnNelderMead \/ k = Basinhopping end ->
  feasible m x (passed_bounds k m x t).
Proof.
  intros k m x [t|] IN V.
  - assert (F : forall i, (i < dims m)%nat -> nth i (lower_bounds m x t) 0 <= nth i x 0 <= nth i (upper_bounds m x t) 0).
    { intros i L. destruct (C40_start_in_bounds_in_trust_region m x t i IN V L) as (_ & _ & H & _). exact H. }
    destruct k; cbn [passed_bounds bound_constraints feasible]; auto.
  - destruct V as [-> | [-> | ->]]; exact I.
Qed.
(** Without a trust region global optimisers other than basin hopping get bounds that allow nothing but zeros. *)
Theorem C58_zero_bounds_refuted : forall k m x, k = DifferentialEvolution \/ k = DualAnnealing \/ k = Shgo ->
  exists l u, passed_bounds k m x None = Some (l, u) /\ length l = dims m /\ length u = dims m /\
  forall y, (length y = dims m /\ feasible m y (Some (l, u))) <-> y = repeat 0 (dims m).
Proof.
  intros k m x K. exists (repeat 0 (nvars m)), (repeat 0 (nvars m)).
  split; [destruct K as [-> | [-> | ->]]; reflexivity|]. do 2 (split; [rewrite repeat_length; now destruct m|]).
  intros y. cbn [feasible]. split.
  - intros [LY H]. apply nth_ext with (d := 0) (d' := 0); [now rewrite repeat_length|]. intros i L.
    rewrite nth_repeat. specialize (H i ltac:(lia)). rewrite !nth_repeat in H. lra.
  - intros ->. rewrite repeat_length. split; [reflexivity|]. intros i L. rewrite !nth_repeat. lra.
Qed.
Print Assumptions C40_start_in_bounds_in_trust_region.
