(** Moving-screen calibration over time, and its plot: property C99. *)
From Coq Require Import String List Arith ZArith Reals Bool Lra Lia Permutation.
From Verif Require Import Model.Detector Model.MovingScreen Model.MovingScreenHistory Spec.MovingScreenHistorySpec
  Proofs.MovingScreenProofs Proofs.MovingScreenHistoryProofs.
From Verif Require Model.SimulationMarkers Model.KikuchiLines.
Import ListNotations.
Local Open Scope list_scope.
Local Open Scope R_scope.

(** ** History *)

(** Attributes assigned in any order and at any time take effect as if the object were made with them, as long as
    make_lines is called after the last assignment to the points ... *)
Theorem C99_as_created_after_make_lines c h1 h2 : Forall keeps_points h2 ->
  let s := run (create c) (h1 ++ MakeLines :: h2) in
  readings s = readings (create (fold_left (fun c o => assign o c) (h1 ++ h2) c)).
Proof.
  intros F s. assert (E : s = create (settings s)).
  { unfold s. rewrite run_app. apply (current_run h2 (make_lines (run (create c) h1))); auto. }
  assert (A : forall h t, settings (run t h) = fold_left (fun c o => assign o c) h (settings t)).
  { induction h as [|o h IH]; intros t; [reflexivity|]. cbn [fold_left].
    replace (assign o (settings t)) with (settings (step t o)) by (destruct o; try reflexivity; cbn; destruct (settings t); reflexivity).
    exact (IH (step t o)). }
  rewrite E. f_equal. f_equal. unfold s. rewrite A, !fold_left_app. cbn [fold_left]. f_equal.
  change (settings (create c)) with c. generalize (fold_left (fun c o => assign o c) h1 c). intros k. destruct k; reflexivity.
Qed.
(** ... and, of objects to whose points nothing is assigned, always. *)
Theorem C99_as_created_without_new_points c h : Forall keeps_points h ->
  readings (run (create c) h) = readings (create (settings (run (create c) h))).
Proof. intros F. rewrite (current_run h (create c)) at 1; auto. Qed.
(** Each attribute has the value assigned to it last, whatever is assigned to the others. *)
Theorem C99_latest_values c h : let k := settings (run (create c) h) in
  m_points k = latest (fun o => match o with AssignPoints f => Some f | _ => None end) h (m_points c) /\
  (m_nrows k, m_ncols k) = latest (fun o => match o with AssignPatterns ny nx => Some (ny, nx) | _ => None end) h (m_nrows c, m_ncols c) /\
  m_delta_z k = latest (fun o => match o with AssignDeltaZ dz => Some dz | _ => None end) h (m_delta_z c) /\
  m_px_size k = latest (fun o => match o with AssignPixelSize px => Some px | _ => None end) h (m_px_size c) /\
  m_binning k = latest (fun o => match o with AssignBinning b => Some b | _ => None end) h (m_binning c) /\
  m_convention k = latest (fun o => match o with AssignConvention p => Some p | _ => None end) h (m_convention c).
Proof.
  cbv zeta. replace c with (settings (create c)) by reflexivity.
  change (settings (create (settings (create c)))) with (settings (create c)). change (create (settings (create c))) with (create c).
  generalize (create c) as s. clear c.
  induction h as [|o h IH]; intros s; [repeat split|].
  unfold latest in *. cbn [fold_left run].
  change (fold_left step h (step s o)) with (run (step s o) h).
  destruct (IH (step s o)) as (E1 & E2 & E3 & E4 & E5 & E6).
  rewrite E1, E2, E3, E4, E5, E6. clear.
  destruct s as [[ny nx f dz px b p] l]. destruct o; repeat split.
Qed.
Example C99_latest_case :
  m_binning (settings (run (create (Calibration 40 50 [] 6 None 1 BRUKER)) [AssignBinning 2; AssignPatterns 20 25; AssignBinning 4; AssignDeltaZ 5])) = 4
  /\ m_nrows (settings (run (create (Calibration 40 50 [] 6 None 1 BRUKER)) [AssignBinning 2; AssignPatterns 20 25; AssignBinning 4; AssignDeltaZ 5])) = 20%nat.
Proof. split; reflexivity. Qed.
(** The pattern coordinates of the PC follow the points in any case. *)
Theorem C99_pattern_coordinates_current s : pxy_all s = pxy_all (create (settings s)) /\ pxy s = pxy (create (settings s)).
Proof. split; unfold pxy; rewrite ?pxy_all_eq; reflexivity. Qed.

(** A calibration with two features seen from (10, 10), 3 to the right and 4 below, magnified by 2 when the camera is
    moved away. *)
Definition two_features (magnification : R) : list (point * point) :=
  [((13, 10), (10 + 3 * magnification, 10)); ((10, 14), (10, 10 + 4 * magnification))].
Definition example (magnification : R) : calibration := Calibration 40 50 (two_features magnification) 6 None 1 BRUKER.
Lemma example_estimate k m : 1 < k -> 0 < m ->
  estimate_of (example k) (((13, 10), (10 + 3 * m, 10)), ((10, 14), (10, 10 + 4 * m)))
  = if Req_EM_T m 1 then [] else [((10, 10), Finite (6 / (m - 1)))].
Proof.
  intros Hk Hm. unfold estimate_of. cbn [fst snd]. unfold intersection.
  set (d := det2 (det2 (10 + 3 * m) 1 13 1) _ _ _).
  assert (D : d = (3 * m - 3) * (4 * m - 4)) by (unfold d, det2; ring).
  destruct (Req_EM_T m 1) as [E|E].
  - destruct (Req_EM_T d 0) as [|N]; [reflexivity|]. exfalso. apply N. rewrite D, E. ring.
  - destruct (Req_EM_T d 0) as [Z|N].
    + exfalso. rewrite D in Z. apply Rmult_integral in Z. destruct Z; apply E; lra.
    + match goal with |- context [within _ ?q] => assert (P : q = (10, 10)) end.
      { f_equal; rewrite D in *; unfold det2; field; split; intros Q; apply E; lra. }
      rewrite P. assert (W : within (example k) (10, 10) = true).
      { apply within_spec. unfold in_pattern. cbn [fst snd m_ncols m_nrows example].
        replace (INR 50) with 50 by (simpl; lra). replace (INR 40) with 40 by (simpl; lra). lra. }
      rewrite W. f_equal. f_equal. unfold distance_from. cbn [fst snd m_px_size m_delta_z example].
      assert (L1 : line_length (13, 10) (10, 14) = 5).
      { unfold line_length. cbn [fst snd]. replace (_ + _) with (5 * 5) by ring. apply sqrt_square. lra. }
      assert (L2 : line_length (10 + 3 * m, 10) (10, 10 + 4 * m) = 5 * m).
      { unfold line_length. cbn [fst snd]. replace (_ + _) with ((5 * m) * (5 * m)) by ring. apply sqrt_square. lra. }
      rewrite L1, L2. unfold divide. destruct (Req_EM_T 5 0) as [Q|_]; [exfalso; lra|].
      destruct (Req_EM_T (5 * m / 5 - 1) 0) as [Q|Q].
      * exfalso. apply E. replace (5 * m / 5) with m in Q by field. lra.
      * f_equal. replace (5 * m / 5) with m by field. reflexivity.
Qed.
Ltac three_numbers := cbn [orb];
  match goal with |- Some (Finite ?a, Finite ?b, Finite ?c) = Some (Finite ?a', Finite ?b', Finite ?c') =>
    replace a with a' by field; replace b with b' by field; replace c with c' by field; reflexivity end.
Example C99_case : read_pc (create (example 2)) = Some (Finite (10 / 50), Finite (10 / 40), Finite 6).
Proof.
  unfold read_pc. rewrite read_pc_all_eq. change (m_points (example 2)) with (two_features 2). cbn [two_features length Nat.ltb Nat.leb pairs map app flat_map].
  match goal with |- context [estimate_of (example 2) ?fg] => change (estimate_of (example 2) fg) with (estimate_of (example 2) (((13, 10), (10 + 3 * 2, 10)), ((10, 14), (10, 10 + 4 * 2)))) end.
      rewrite (example_estimate 2 2) by lra. destruct (Req_EM_T 2 1) as [Q|_]; [exfalso; lra|].
  cbn [app map fst snd option_map]. unfold nanmean. cbn [existsb finite_part flat_map app sum fold_right length pc_xy fst snd m_ncols m_nrows m_convention example].
  replace (INR 50) with 50 by (simpl; lra). replace (INR 40) with 40 by (simpl; lra). replace (INR 1) with 1 by reflexivity.
  three_numbers.
Qed.

(** Points assigned without a call of make_lines: the PC is that of neither the old nor the new points.  Here features
    that move twice as far as before should halve the distance, which stays the same. *)
Theorem C99_points_assigned_alone_refuted :
  let s := run (create (example 2)) [AssignPoints (two_features 3)] in
  settings s = example 3 /\
  read_pc (create (example 3)) = Some (Finite (10 / 50), Finite (10 / 40), Finite 3) /\
  read_pc s = Some (Finite (10 / 50), Finite (10 / 40), Finite 6).
Proof.
  cbv zeta. split; [reflexivity|].
  assert (H50 : INR 50 = 50) by (simpl; lra). assert (H40 : INR 40 = 40) by (simpl; lra).
  split.
  - unfold read_pc. rewrite read_pc_all_eq. change (m_points (example 3)) with (two_features 3). cbn [two_features length Nat.ltb Nat.leb pairs map app flat_map].
    match goal with |- context [estimate_of (example 3) ?fg] => change (estimate_of (example 3) fg) with (estimate_of (example 3) (((13, 10), (10 + 3 * 3, 10)), ((10, 14), (10, 10 + 4 * 3)))) end.
      rewrite (example_estimate 3 3) by lra. destruct (Req_EM_T 3 1) as [Q|_]; [exfalso; lra|].
    cbn [app map fst snd option_map]. unfold nanmean. cbn [existsb finite_part flat_map app sum fold_right length pc_xy fst snd m_ncols m_nrows m_convention example].
    rewrite H50, H40. replace (INR 1) with 1 by reflexivity. three_numbers.
  - assert (X : pxy_all (run (create (example 2)) [AssignPoints (two_features 3)]) = Some [(10, 10)]).
    { rewrite pxy_all_eq. change (settings _) with (example 3).
      change (m_points (example 3)) with (two_features 3). cbn [two_features length Nat.ltb Nat.leb pairs map app flat_map].
      match goal with |- context [estimate_of (example 3) ?fg] => change (estimate_of (example 3) fg) with (estimate_of (example 3) (((13, 10), (10 + 3 * 3, 10)), ((10, 14), (10, 10 + 4 * 3)))) end.
      rewrite (example_estimate 3 3) by lra. destruct (Req_EM_T 3 1) as [Q|_]; [exfalso; lra|]. reflexivity. }
    assert (Y : exists b, mask (run (create (example 2)) [AssignPoints (two_features 3)]) = Some [b]).
    { unfold mask, intersections. change (settings _) with (example 3). cbn [m_points example two_features length Nat.ltb Nat.leb pairs map app].
      eexists. reflexivity. }
    destruct Y as [b Y].
    assert (B : b = true).
    { unfold pxy_all in X. rewrite Y in X. cbn [bind] in X. unfold select in X.
      destruct b; [reflexivity|]. exfalso. revert X. unfold intersections. change (settings _) with (example 3).
      cbn [m_points example two_features pairs map app length combine filter fst snd Nat.eqb flat_map option_map]. intros X. discriminate X. }
    subst b.
    pose proof (example_estimate 2 2 ltac:(lra) ltac:(lra)) as E. destruct (Req_EM_T 2 1) as [Q|_]; [exfalso; lra|].
    assert (Z : pcz_all (run (create (example 2)) [AssignPoints (two_features 3)]) = Some [Finite 6]).
    { unfold pcz_all. rewrite Y. cbn [bind].
      change (lines (run (create (example 2)) [AssignPoints (two_features 3)])) with (lines_between (two_features 2)).
      cbn [lines_between two_features pairs map app fst snd]. unfold select. cbn [length Nat.eqb combine filter snd map fst].
      unfold estimate_of in E. cbn [fst snd] in E.
      destruct (intersection _ _ _ _) as [p|]; [|discriminate E]. destruct (within _ p); [|discriminate E].
      apply (f_equal (map snd)) in E. cbn [map snd] in E.
      change (distance_from (settings _)) with (distance_from (example 2)). rewrite E. f_equal. f_equal. f_equal. field. }
    unfold read_pc, read_pc_all. rewrite X. cbn [bind]. rewrite Z. cbn [bind map combine option_map].
    unfold nanmean. cbn [existsb finite_part flat_map app sum fold_right length pc_xy fst snd].
    change (settings _) with (example 3). cbn [m_ncols m_nrows m_convention example].
    rewrite H50, H40. replace (INR 1) with 1 by reflexivity. three_numbers.
Qed.

(** With another number of points assigned, nothing about the distance can be read before make_lines is called. *)
Theorem C99_other_number_of_points_fails c f : (2 <= length (m_points c))%nat -> (2 <= length f)%nat -> length f <> length (m_points c) ->
  let s := run (create c) [AssignPoints f] in
  (exists l, pxy_all s = Some l) /\ pcz_all s = None /\ read_pc_all s = None /\ read_pc s = None.
Proof.
  intros H1 H2 N s.
  assert (P : m_points (settings s) = f) by (unfold s; cbn; destruct c; reflexivity).
  assert (L : lines s = lines_between (m_points c)) by reflexivity.
  assert (Z : pcz_all s = None).
  { unfold pcz_all, mask. rewrite P. destruct (length f <? 2)%nat eqn:E; [reflexivity|]. cbn [bind]. unfold select.
    rewrite map_length, map_length. unfold intersections. rewrite map_length, P, L. unfold lines_between. rewrite map_length.
    destruct (_ =? _)%nat eqn:Q; [|reflexivity]. exfalso. apply Nat.eqb_eq in Q.
    pose proof (in_pairs_length f) as A. pose proof (in_pairs_length (m_points c)) as B. rewrite Q in B.
    assert (length f * (length f - 1) = length (m_points c) * (length (m_points c) - 1))%nat by congruence.
    destruct (lt_eq_lt_dec (length f) (length (m_points c))) as [[?|?]|?]; [nia|contradiction|nia]. }
  assert (X : exists l, pxy_all s = Some l).
  { rewrite pxy_all_eq, P. destruct (Nat.ltb_spec (length f) 2); [lia|]. eexists. reflexivity. }
  split; [exact X|]. split; [exact Z|].
  destruct X as [l X]. unfold read_pc, read_pc_all. rewrite X, Z. split; reflexivity.
Qed.
Example C99_other_number_case : read_pc (run (create (example 2)) [AssignPoints (((20, 20), (25, 25)) :: two_features 2)]) = None.
Proof. apply C99_other_number_of_points_fails; simpl; lia. Qed.

(** ** What is read *)

(** With lines of some length, and of another length in the other pattern, the object gives the estimates of the model
    of property C43 and their mean. *)
Theorem C99_estimates_of_created c : (2 <= length (m_points c))%nat ->
  (forall f g, In (f, g) (pairs (m_points c)) ->
     line_length (fst f) (fst g) <> 0 /\ line_length (snd f) (snd g) <> line_length (fst f) (fst g)) ->
  (forall px, m_px_size c = Some px -> INR (m_nrows c) * px * m_binning c <> 0) ->
  read_pc_all (create c) = Some (map (fun p => ((pcx p, pcy p), Finite (pcz p))) (pc_all c)) /\
  read_pc (create c) = Some match pc c with
                            | Some p => (Finite (pcx p), Finite (pcy p), Finite (pcz p))
                            | None => (NotANumber, NotANumber, NotANumber)
                            end.
Proof.
  intros H2 HL HP.
  assert (A : read_pc_all (create c) = Some (map (fun p => ((pcx p, pcy p), Finite (pcz p))) (pc_all c))).
  { rewrite read_pc_all_eq. destruct (Nat.ltb_spec (length (m_points c)) 2); [lia|]. f_equal. unfold pc_all.
    induction (pairs (m_points c)) as [|[f g] l IH]; [reflexivity|].
    cbn [flat_map]. rewrite !map_app. f_equal; [|apply IH; intros; apply HL; now right].
    specialize (HL f g (or_introl eq_refl)). destruct HL as [L1 L2].
    unfold estimate_of, estimate. cbn [fst snd]. destruct f as [i1 o1], g as [i2 o2]. cbn [fst snd] in *.
    destruct (intersection o1 i1 o2 i2) as [p|]; [|reflexivity]. destruct (within c p); [|reflexivity].
    cbn [map fst snd pcx pcy pcz]. f_equal. f_equal. assert (Q : line_length o1 o2 / line_length i1 i2 - 1 <> 0).
    { intros Q. apply L2. apply (Rmult_eq_reg_r (/ line_length i1 i2)); [|now apply Rinv_neq_0_compat].
      rewrite Rinv_r by auto. unfold Rdiv in Q. lra. }
    unfold distance_from. cbn [fst snd]. unfold divide.
    destruct (Req_EM_T (line_length i1 i2) 0) as [|_]; [contradiction|].
    destruct (Req_EM_T (line_length o1 o2 / line_length i1 i2 - 1) 0) as [|_]; [contradiction|].
    destruct (m_px_size c) as [px|] eqn:P; [|reflexivity].
    destruct (Req_EM_T _ 0) as [K|_]; [exfalso; exact (HP px eq_refl K)|]. reflexivity. }
  split; [exact A|]. unfold read_pc. rewrite A. cbn [option_map]. f_equal. unfold pc.
  assert (B : forall (h : pc3 -> R) l, l <> [] -> nanmean (map (fun p => Finite (h p)) l) = Finite (meanR (map h l))).
  { intros h l N. unfold nanmean.
    assert (E1 : existsb (fun x => match x with Infinite => true | _ => false end) (map (fun p => Finite (h p)) l) = false).
    { clear. induction l as [|a l IH]; [reflexivity|]. exact IH. }
    assert (E2 : finite_part (map (fun p => Finite (h p)) l) = map h l).
    { clear. induction l as [|a l IH]; [reflexivity|]. cbn [map finite_part flat_map app]. f_equal; exact IH. }
    rewrite E1, E2. destruct l as [|a l]; [contradiction|]. reflexivity. }
  destruct (pc_all c) as [|p l] eqn:E; [reflexivity|].
  rewrite !map_map. cbn [fst snd].
  rewrite (B pcx), (B pcy), (B pcz) by discriminate. reflexivity.
Qed.

Lemma line_length_0 p q : line_length p q = 0 -> p = q.
Proof.
  destruct p as [x y], q as [u v]. unfold line_length. cbn [fst snd]. intros Z.
  pose proof (Rle_0_sqr (x - u)) as A. pose proof (Rle_0_sqr (y - v)) as B. unfold Rsqr in A, B.
  apply sqrt_eq_0 in Z; [|lra].
  assert (A0 : (x - u) * (x - u) = 0) by lra. assert (B0 : (y - v) * (y - v) = 0) by lra.
  apply Rmult_integral in A0, B0. f_equal; destruct A0, B0; lra.
Qed.
(** Two features whose lines cross in the pattern, at (x, y). *)
Lemma two_features_read c f g p : m_points c = [f; g] -> intersection (snd f) (fst f) (snd g) (fst g) = Some p -> in_pattern c p ->
  read_pc (create c) = Some (Finite (fst (pc_xy c p)), Finite (snd (pc_xy c p)),
    match distance_from c ((fst f, fst g), (snd f, snd g)) with Finite z => Finite z | n => n end).
Proof.
  intros P I W. unfold read_pc. rewrite read_pc_all_eq, P. cbn [length Nat.ltb Nat.leb pairs map app flat_map].
  unfold estimate_of. cbn [fst snd]. rewrite I. apply within_spec in W. rewrite W. cbn [app map fst snd option_map].
  unfold nanmean. cbn [existsb finite_part flat_map app sum fold_right length orb]. change (INR 1) with 1.
  rewrite !Rplus_0_r. unfold Rdiv. rewrite !Rinv_1, !Rmult_1_r.
  destruct (distance_from c _) as [z| |]; cbn [existsb flat_map app fold_right length orb]; try reflexivity.
  change (INR 1) with 1. rewrite Rplus_0_r, Rinv_1, Rmult_1_r. reflexivity.
Qed.
(** Features at the same place in the first pattern are seen from that place, at distance zero, whatever the camera was moved by. *)
Theorem C99_same_place_in_first_pattern_refuted c q1 q2 p : m_points c = [(p, q1); (p, q2)] -> in_pattern c p ->
  (fst q1 - fst p) * (snd q2 - snd p) <> (fst q2 - fst p) * (snd q1 - snd p) ->
  (forall px, m_px_size c = Some px -> INR (m_nrows c) * px * m_binning c <> 0) ->
  read_pc (create c) = Some (Finite (fst (pc_xy c p)), Finite (snd (pc_xy c p)), Finite 0).
Proof.
  intros P W N X. assert (I : intersection q1 p q2 p = Some p).
  { destruct q1 as [x1 y1], q2 as [x2 y2], p as [x y]. cbn [fst snd] in *. unfold intersection. cbv zeta.
    set (d := det2 (det2 x1 1 x 1) _ _ _). assert (D : d = (x1 - x) * (y2 - y) - (x2 - x) * (y1 - y)) by (unfold d, det2; ring).
    destruct (Req_EM_T d 0) as [Z|Z]; [exfalso; apply N; lra|]. rewrite D in *. clear d D. unfold det2.
    match goal with |- Some (?a, ?b) = _ => replace a with x by (field; exact Z); replace b with y by (field; exact Z); reflexivity end. }
  rewrite (two_features_read c _ _ p P I W). cbn [fst snd]. f_equal. f_equal.
  unfold distance_from. cbn [fst snd].
  assert (L0 : line_length p p = 0).
  { unfold line_length. replace (_ + _) with 0 by ring. exact sqrt_0. }
  assert (L1 : line_length q1 q2 <> 0).
  { intros Z. apply line_length_0 in Z. apply N. rewrite Z. reflexivity. }
  rewrite L0. unfold divide. destruct (Req_EM_T 0 0) as [_|Q]; [|now elim Q]. destruct (Req_EM_T _ 0) as [Q|_]; [contradiction|].
  destruct (m_px_size c) as [px|] eqn:E; [|reflexivity].
  destruct (Req_EM_T _ 0) as [Q|_]; [elim (X px eq_refl Q)|]. f_equal. unfold Rdiv. ring.
Qed.
Example C99_same_place_case : let c := Calibration 40 50 [((10, 10), (16, 10)); ((10, 10), (10, 18))] 6 None 1 BRUKER in
  read_pc (create c) = Some (Finite (10 / INR 50), Finite (10 / INR 40), Finite 0).
Proof.
  cbv zeta. apply (C99_same_place_in_first_pattern_refuted (Calibration 40 50 [((10, 10), (16, 10)); ((10, 10), (10, 18))] 6 None 1 BRUKER) (16, 10) (10, 18) (10, 10)); [reflexivity| | |].
  - unfold in_pattern. cbn [fst snd m_ncols m_nrows]. replace (INR 50) with 50 by (simpl; lra). replace (INR 40) with 40 by (simpl; lra). lra.
  - cbn [fst snd]. lra.
  - discriminate.
Qed.
(** Features as far from each other in both patterns: the distance is infinite, or not a number if the camera was not
    moved, in which case it does not count among other distances. *)
Theorem C99_same_distance_apart c f g p : m_points c = [f; g] -> intersection (snd f) (fst f) (snd g) (fst g) = Some p -> in_pattern c p ->
  line_length (fst f) (fst g) = line_length (snd f) (snd g) -> fst f <> fst g ->
  read_pc (create c) = Some (Finite (fst (pc_xy c p)), Finite (snd (pc_xy c p)), if Req_EM_T (m_delta_z c) 0 then NotANumber else Infinite).
Proof.
  intros P I W L N. rewrite (two_features_read c _ _ p P I W). f_equal. f_equal.
  assert (L1 : line_length (fst f) (fst g) <> 0).
  { intros Z. apply N. exact (line_length_0 _ _ Z). }
  unfold distance_from. cbn [fst snd]. rewrite <- L. unfold divide. destruct (Req_EM_T _ 0) as [Q|_]; [contradiction|].
  destruct (Req_EM_T (_ - 1) 0) as [_|Q]; [|elim Q; field; exact L1].
  destruct (m_px_size c), (Req_EM_T (m_delta_z c) 0); reflexivity.
Qed.
Example C99_same_distance_case : let c := Calibration 40 50 [((12, 10), (8, 10)); ((10, 12), (10, 8))] 6 None 1 BRUKER in
  read_pc (create c) = Some (Finite (10 / INR 50), Finite (10 / INR 40), Infinite).
Proof.
  cbv zeta. set (c := Calibration _ _ _ _ _ _ _).
  rewrite (C99_same_distance_apart c ((12, 10), (8, 10)) ((10, 12), (10, 8)) (10, 10)).
  - cbn [m_delta_z c]. destruct (Req_EM_T 6 0) as [Q|_]; [exfalso; lra|]. reflexivity.
  - reflexivity.
  - unfold intersection. cbn [fst snd]. unfold det2.
    match goal with |- (if ?b then _ else _) = _ => destruct b as [Q|_]; [exfalso; lra|] end.
    match goal with |- Some (?a, ?b) = _ => replace a with 10 by field; replace b with 10 by field; reflexivity end.
  - unfold in_pattern, c. cbn [fst snd m_ncols m_nrows]. replace (INR 50) with 50 by (simpl; lra). replace (INR 40) with 40 by (simpl; lra). lra.
  - unfold line_length. cbn [fst snd]. f_equal. ring.
  - cbn [fst]. intros Q. injection Q as Q. lra.
Qed.

(** The order of the features does not matter. *)
Theorem C99_any_order_of_features c f : Permutation (m_points c) f ->
  read_pc (create (with_points f c)) = read_pc (create c) /\ pxy (create (with_points f c)) = pxy (create c).
Proof.
  intros P. pose proof (permuted_estimates c _ _ P) as E.
  assert (S : forall fg, estimate_of (with_points f c) fg = estimate_of c fg) by reflexivity.
  split.
  - unfold read_pc. rewrite !read_pc_all_eq. cbn [m_points with_points]. rewrite (Permutation_length P).
    destruct (_ <? 2)%nat; [reflexivity|]. cbn [option_map]. f_equal. rewrite !map_map.
    rewrite (flat_map_ext _ _ S). symmetry in E.
    f_equal; [f_equal|]; apply nanmean_permuted; exact (Permutation_map _ E).
  - unfold pxy. rewrite !pxy_all_eq. cbn [m_points with_points settings create make_lines]. rewrite (Permutation_length P).
    destruct (_ <? 2)%nat; [reflexivity|]. cbn [option_map]. f_equal. rewrite !map_map.
    rewrite (flat_map_ext _ _ S). symmetry in E.
    f_equal; apply nanmean_permuted; exact (Permutation_map _ E).
Qed.
Example C99_order_case : read_pc (create (with_points (rev (two_features 2)) (example 2))) = Some (Finite (10 / 50), Finite (10 / 40), Finite 6).
Proof. rewrite <- C99_case. apply C99_any_order_of_features. apply Permutation_rev. Qed.

(** With the two patterns exchanged, the pattern coordinates are the same and the distance is minus that of the camera
    moved away. *)
Theorem C99_patterns_exchanged c (moved : R) :
  (forall f g, In (f, g) (pairs (m_points c)) ->
     line_length (fst f) (fst g) <> 0 /\ line_length (snd f) (snd g) <> 0 /\ line_length (snd f) (snd g) <> line_length (fst f) (fst g)) ->
  match m_px_size c with
  | None => moved = m_delta_z c
  | Some px => INR (m_nrows c) * px * m_binning c <> 0 /\ moved * (INR (m_nrows c) * px * m_binning c) = m_delta_z c
  end ->
  read_pc_all (create (exchanged c)) =
  option_map (map (fun e => (fst e, match snd e with Finite z => Finite (- (z + moved)) | other => other end))) (read_pc_all (create c)).
Proof.
  intros HL HP. rewrite !read_pc_all_eq. cbn [m_points exchanged with_points]. rewrite map_length.
  destruct (_ <? 2)%nat; [reflexivity|]. cbn [option_map]. f_equal. rewrite pairs_map.
  induction (pairs (m_points c)) as [|[f g] l IH]; [reflexivity|].
  cbn [map flat_map]. rewrite !map_app. f_equal; [|apply IH; intros; apply HL; now right].
  specialize (HL f g (or_introl eq_refl)). destruct HL as (L1 & L2 & L3).
  unfold estimate_of. destruct f as [i1 o1], g as [i2 o2]. cbn [fst snd] in *.
  rewrite intersection_ends. destruct (intersection o1 i1 o2 i2) as [p|]; [|reflexivity].
  change (within (exchanged c) p) with (within c p). destruct (within c p); [|reflexivity].
  cbn [map fst snd]. f_equal. f_equal.
  set (a := line_length i1 i2) in *. set (b := line_length o1 o2) in *.
  assert (Q1 : b / a - 1 <> 0).
  { intros Q. apply L3. replace b with (b / a * a) by (field; auto). replace (b / a) with 1 by lra. ring. }
  assert (Q2 : a / b - 1 <> 0).
  { intros Q. apply L3. replace a with (a / b * b) by (field; auto). replace (a / b) with 1 by lra. ring. }
  assert (D : b - a <> 0) by (intros Q; apply L3; lra). assert (D' : a - b <> 0) by (intros Q; apply L3; lra).
  unfold distance_from. cbn [fst snd m_px_size m_delta_z m_nrows m_binning exchanged with_points]. fold a b.
  unfold divide.
  destruct (Req_EM_T b 0) as [|_]; [contradiction|]. destruct (Req_EM_T a 0) as [|_]; [contradiction|].
  destruct (Req_EM_T (b / a - 1) 0) as [|_]; [contradiction|]. destruct (Req_EM_T (a / b - 1) 0) as [|_]; [contradiction|].
  destruct (m_px_size c) as [px|].
  - destruct HP as [K M]. destruct (Req_EM_T _ 0) as [|_]; [contradiction|]. f_equal. rewrite <- M.
    set (k := INR (m_nrows c) * px * m_binning c) in *. field. auto.
  - subst moved. f_equal. field. auto.
Qed.
Example C99_exchanged_case : exists z, read_pc_all (create (exchanged (example 2))) = Some [((10 / 50, 10 / 40), Finite z)] /\ z = -12.
Proof.
  assert (L1 : line_length (13, 10) (10, 14) = 5).
  { unfold line_length. cbn [fst snd]. replace (_ + _) with (5 * 5) by ring. apply sqrt_square. lra. }
  assert (L2 : line_length (10 + 3 * 2, 10) (10, 10 + 4 * 2) = 10).
  { unfold line_length. cbn [fst snd]. replace (_ + _) with (10 * 10) by ring. apply sqrt_square. lra. }
  eexists. split.
  - rewrite (C99_patterns_exchanged (example 2) 6).
    + rewrite read_pc_all_eq. change (m_points (example 2)) with (two_features 2). cbn [two_features length Nat.ltb Nat.leb pairs map app flat_map].
      match goal with |- context [estimate_of (example 2) ?fg] => change (estimate_of (example 2) fg) with (estimate_of (example 2) (((13, 10), (10 + 3 * 2, 10)), ((10, 14), (10, 10 + 4 * 2)))) end.
      rewrite (example_estimate 2 2) by lra. destruct (Req_EM_T 2 1) as [Q|_]; [exfalso; lra|].
      cbn [app map fst snd option_map].
      change (pc_xy (example 2) (10, 10)) with (10 / INR 50, 10 / INR 40).
      replace (INR 50) with 50 by (simpl; lra). replace (INR 40) with 40 by (simpl; lra). reflexivity.
    + cbn [m_points example two_features pairs map app]. intros f g [[= <- <-]|[]]. cbn [fst snd]. rewrite L1, L2. lra.
    + reflexivity.
  - field.
Qed.

(** ** Plot *)

(** Three panels: the patterns with their points and lines, and the points of both with the line from each feature in
    the out pattern to itself in the in pattern.  Each star in the third is inside the pattern and on the lines of two
    features, and the PC, in all panels, is at the mean of the stars. *)
Theorem C99_plot_shows s lk sk pk panels : plot s lk sk pk = Some panels ->
  exists xy a b c, panels = [a; b; c] /\
    shown a = PatternIn /\ dots a = map fst (m_points (settings s)) /\ stars a = [] /\ through a = map fst (lines s) /\
    shown b = PatternOut /\ dots b = map snd (m_points (settings s)) /\ stars b = [] /\ through b = map snd (lines s) /\
    shown c = Grey /\ dots c = map fst (m_points (settings s)) ++ map snd (m_points (settings s)) /\
    through c = map (fun f => (snd f, fst f)) (m_points (settings s)) /\ pxy_all s = Some (stars c) /\
    pxy s = Some xy /\ Forall (fun p => position (pc_drawn p) = xy) panels /\
    (stars c <> [] -> xy = (Finite (sum (map fst (stars c)) / INR (length (stars c))), Finite (sum (map snd (stars c)) / INR (length (stars c))))) /\
    (forall p, In p (stars c) -> in_pattern (settings s) p /\
       exists i j l m, (i < j)%nat /\ nth_error (through c) i = Some l /\ nth_error (through c) j = Some m /\ on_line p l /\ on_line p m).
Proof.
  unfold plot. intros E. destruct (pxy s) as [xy|] eqn:X; [|discriminate E]. cbn [bind] in E.
  destruct (pxy_all s) as [all|] eqn:A; [|discriminate E]. cbn [bind] in E.
  match type of E with (if ?b then _ else _) = _ => destruct b; [discriminate E|] end.
  injection E as <-. exists xy. do 3 eexists. split; [reflexivity|].
  cbn [shown dots stars through pc_drawn position]. do 13 (split; [now auto|]).
  split; [repeat constructor|]. split.
  - intros N. unfold pxy in X. rewrite A in X. cbn [option_map] in X. injection X as <-.
    assert (B : forall (h : point -> R), nanmean (map (fun p => Finite (h p)) all) = Finite (sum (map h all) / INR (length all))).
    { intros h. unfold nanmean.
      assert (E1 : existsb (fun x => match x with Infinite => true | _ => false end) (map (fun p => Finite (h p)) all) = false).
      { clear. induction all as [|a l IH]; [reflexivity|]. exact IH. }
      assert (E2 : finite_part (map (fun p => Finite (h p)) all) = map h all).
      { clear. induction all as [|a l IH]; [reflexivity|]. cbn [map finite_part flat_map app]. f_equal; exact IH. }
      rewrite E1, E2. destruct all as [|a l]; [contradiction|]. cbn [map length]. rewrite map_length. reflexivity. }
    exact (f_equal2 pair (B fst) (B snd)).
  - intros p Hp. rewrite pxy_all_eq in A. destruct (_ <? 2)%nat; [discriminate A|]. injection A as <-.
    apply in_map_iff in Hp. destruct Hp as ([q z] & Eq & Hp). cbn [fst] in Eq. subst q.
    apply in_flat_map in Hp. destruct Hp as ([f g] & Hfg & Hp). unfold estimate_of in Hp. cbn [fst snd] in Hp.
    destruct (intersection _ _ _ _) as [q|] eqn:I; [|destruct Hp].
    destruct (within (settings s) q) eqn:W; [|destruct Hp]. destruct Hp as [Hp|[]]. injection Hp as <- <-.
    split; [now apply within_spec|].
    apply in_pairs_nth in Hfg. destruct Hfg as (i & j & Hij & Hi & Hj).
    apply intersection_on_lines in I. destruct I as [I1 I2].
    exists i, j, (snd f, fst f), (snd g, fst g). split; [exact Hij|].
    split; [now rewrite nth_error_map, Hi|]. split; [now rewrite nth_error_map, Hj|]. now split.
Qed.
(** When is it drawn? With two points or more, unless a keyword argument the plot sets is given as well. *)
Theorem C99_plot_drawn_iff c lk sk pk : let given k o := match o with Some kw => has k kw | None => false end in
  (exists panels, plot (create c) lk sk pk = Some panels) <->
  (2 <= length (m_points c))%nat /\ given "color"%string lk = false /\ given "linestyle"%string lk = false /\
  given "color"%string sk = false /\ given "marker"%string sk = false.
Proof.
  intros given. unfold plot. cbn [settings create make_lines lines]. unfold pxy. rewrite pxy_all_eq. cbn [settings create make_lines].
  destruct (Nat.ltb_spec (length (m_points c)) 2) as [H|H]; cbn [option_map bind].
  - split; [intros [p E]; discriminate E|]. intros [Q _]. lia.
  - assert (N : (length (lines_between (m_points c)) =? 0)%nat = false).
    { apply Nat.eqb_neq. unfold lines_between. rewrite map_length. pose proof (in_pairs_length (m_points c)). nia. }
    assert (M : (length (m_points c) =? 0)%nat = false) by (apply Nat.eqb_neq; lia).
    rewrite N, M. cbn [negb andb]. unfold given.
    assert (G : forall k d (kw : option kwargs), has k d = false ->
      has k (match kw with Some x => x | None => d end) = match kw with Some x => has k x | None => false end) by (intros k d [x|] Q; auto).
    rewrite !G by reflexivity.
    destruct (match lk with Some x => has "linestyle" x | None => false end), (match lk with Some x => has "color" x | None => false end),
      (match sk with Some x => has "color" x | None => false end), (match sk with Some x => has "marker" x | None => false end);
      cbn [orb]; split; try (intros [p E]; discriminate E); try (intros (? & ? & ? & ? & ?); discriminate).
    + intros _. repeat split; auto.
    + intros _. eexists. reflexivity.
Qed.
(** The lines drawn in the patterns of a new object join every two of its points. *)
Theorem C99_lines_join_points c lk sk pk a b g : plot (create c) lk sk pk = Some [a; b; g] ->
  (forall l, In l (through a) <-> exists i j f h, (i < j)%nat /\ nth_error (m_points c) i = Some f /\ nth_error (m_points c) j = Some h /\ l = (fst f, fst h)) /\
  (forall l, In l (through b) <-> exists i j f h, (i < j)%nat /\ nth_error (m_points c) i = Some f /\ nth_error (m_points c) j = Some h /\ l = (snd f, snd h)).
Proof.
  intros E. apply C99_plot_shows in E.
  destruct E as (xy & a' & b' & g' & E & _ & _ & _ & Ta & _ & _ & _ & Tb & _). injection E as <- <- <-.
  rewrite Ta, Tb. cbn [lines create make_lines settings]. unfold lines_between. rewrite !map_map. cbn [fst snd].
  split; intros l; rewrite in_map_iff; split.
  - intros ([f h] & <- & H). apply in_pairs_nth in H. destruct H as (i & j & Hij & Hi & Hj). exists i, j, f, h. auto.
  - intros (i & j & f & h & Hij & Hi & Hj & ->). exists (f, h). split; [reflexivity|]. now apply (pairs_nth _ i j).
  - intros ([f h] & <- & H). apply in_pairs_nth in H. destruct H as (i & j & Hij & Hi & Hj). exists i, j, f, h. auto.
  - intros (i & j & f & h & Hij & Hi & Hj & ->). exists (f, h). split; [reflexivity|]. now apply (pairs_nth _ i j).
Qed.
(** The PC is a circle with a cross of half its size; the size is the argument s for the PC, by default 200, and both lie as
    high as asked for with the argument zorder of the dots. *)
Theorem C99_plot_marks s lk sk pk panels : plot s lk sk pk = Some panels ->
  forall p, In p panels ->
    (forall v kw, pk = Some (("s"%string, v) :: kw) -> circle_size (pc_drawn p) = v) /\
    (pk = None -> circle_size (pc_drawn p) = 200) /\
    2 * cross_size (pc_drawn p) = circle_size (pc_drawn p) /\
    (forall z kw, sk = Some (("zorder"%string, z) :: kw) -> order (pc_drawn p) = z) /\ (sk = None -> order (pc_drawn p) = 2).
Proof.
  unfold plot. intros E p Hp. destruct (pxy s) as [xy|]; [|discriminate E]. cbn [bind] in E.
  destruct (pxy_all s) as [all|]; [|discriminate E]. cbn [bind] in E.
  match type of E with (if ?b then _ else _) = _ => destruct b; [discriminate E|] end.
  injection E as <-. destruct Hp as [<-|[<-|[<-|[]]]]; cbn [pc_drawn circle_size cross_size order];
    (split; [intros v kw ->; reflexivity|]; split; [intros ->; reflexivity|]; split; [lra|]; split; [intros z kw ->; reflexivity|intros ->; reflexivity]).
Qed.
(** The keyword zorder of pc_kwargs is documented to be passed on; it has no effect. *)
Theorem C99_zorder_of_pc_refuted s lk sk pk z : plot s lk sk (Some (("zorder"%string, z) :: pk)) = plot s lk sk (Some pk).
Proof. reflexivity. Qed.
Example C99_plot_case : exists panels, plot (create (example 2)) None None (Some [("s"%string, 50)]) = Some panels.
Proof. apply C99_plot_drawn_iff. repeat split; auto. Qed.

(** ** The same PC drawn on the detector *)

(** The PC of a calibration (Bruker's convention) is drawn by EBSDDetector.plot half a pixel further to the left and
    half a pixel higher in the pattern than by the calibration, whose images have the centers of their outer pixels at 0 and
    at the number of pixels less one: [fraction] is where a point in such an image is relative to its edges. *)
Definition fraction (n : nat) (x : R) : R := (x + 1 / 2) / INR n.
Theorem C99_half_a_pixel_refuted c x y z px py tilt azimuthal twist sample size b :
  m_convention c = BRUKER -> (0 < m_nrows c)%nat -> (0 < m_ncols c)%nat -> pxy_all (create c) <> Some [] ->
  read_pc (create c) = Some (Finite x, Finite y, Finite z) -> pxy (create c) = Some (Finite px, Finite py) ->
  let d := Det (Z.of_nat (m_nrows c)) (Z.of_nat (m_ncols c)) size b tilt azimuthal twist sample (PCArray [1%nat] [PC x y z]) in
  let '(p, extent) := SimulationMarkers.detector_plot d KikuchiLines.InPixels in
  p = SimulationMarkers.drawn_at extent (fraction (m_ncols c) (px - 1 / 2)) (fraction (m_nrows c) (py - 1 / 2)).
Proof.
  intros HC Hny Hnx HN HP HX. cbv zeta. unfold SimulationMarkers.detector_plot. cbn [d_pc pcs].
  assert (M : forall v, meanR [v] = v) by (intros v; unfold meanR; simpl; field).
  unfold mean_pc. cbn [map pcx pcy]. rewrite !M. unfold SimulationMarkers.drawn_at, fraction.
  match goal with |- (_ * ?u, _ * ?v) = _ => generalize u v end. intros u v.
  assert (Nx : INR (m_ncols c) <> 0) by (apply not_0_INR; lia). assert (Ny : INR (m_nrows c) <> 0) by (apply not_0_INR; lia).
  assert (XY : x = px / INR (m_ncols c) /\ y = py / INR (m_nrows c)).
  { unfold read_pc in HP. rewrite read_pc_all_eq in HP. unfold pxy in HX. rewrite pxy_all_eq in HX, HN.
    cbn [settings create make_lines] in HX, HN. destruct (_ <? 2)%nat; [discriminate HP|]. cbn [option_map] in HP, HX.
    revert HP HX HN. generalize (flat_map (estimate_of c) (pairs (m_points c))). intros l HP HX HN.
    rewrite !map_map in HP, HX. cbn [fst snd pc_xy] in HP. rewrite HC in HP.
    apply (f_equal (fun o => match o with Some (a, b, _) => Some (a, b) | None => None end)) in HP.
    assert (B : forall (h : point * number -> R), nanmean (map (fun p => Finite (h p)) l) = Finite (sum (map h l) / INR (length l))).
    { intros h. unfold nanmean.
      assert (E1 : existsb (fun x => match x with Infinite => true | _ => false end) (map (fun p => Finite (h p)) l) = false).
      { clear. induction l as [|a l IH]; [reflexivity|]. exact IH. }
      assert (E2 : finite_part (map (fun p => Finite (h p)) l) = map h l).
      { clear. induction l as [|a l IH]; [reflexivity|]. cbn [map finite_part flat_map app]. f_equal; exact IH. }
      rewrite E1, E2. destruct l as [|a l]; [exfalso; apply HN; reflexivity|]. cbn [map length]. rewrite map_length. reflexivity. }
    assert (S : forall (h : point * number -> R) k, k <> 0 -> sum (map (fun p => h p / k) l) = sum (map h l) / k).
    { intros h k Hk. clear - Hk. induction l as [|a l IH]; simpl; [field; auto|]. unfold sum in *. rewrite IH. field. auto. }
    rewrite (B (fun e => fst (fst e) / INR (m_ncols c))), (B (fun e => snd (fst e) / INR (m_nrows c))) in HP.
    rewrite (B (fun e => fst (fst e))), (B (fun e => snd (fst e))) in HX.
    rewrite !S in HP by auto. injection HP as <- <-. injection HX as <- <-.
    assert (L : INR (length l) <> 0).
    { apply not_0_INR. destruct l; [exfalso; apply HN; reflexivity|discriminate]. }
    split; field; auto. }
  destruct XY as [-> ->]. f_equal; field; auto.
Qed.

Print Assumptions C99_as_created_after_make_lines.
Print Assumptions C99_points_assigned_alone_refuted.
Print Assumptions C99_plot_shows.
