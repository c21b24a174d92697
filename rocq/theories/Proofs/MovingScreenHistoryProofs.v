From Coq Require Import List Arith Reals Bool Lra Lia Permutation.
From Verif Require Import Model.Detector Model.MovingScreen Model.MovingScreenHistory Spec.MovingScreenHistorySpec Proofs.MovingScreenProofs.
Import ListNotations.
Local Open Scope R_scope.

(** ** History *)
Lemma run_app s h1 h2 : run s (h1 ++ h2) = run (run s h1) h2.
Proof. unfold run. apply fold_left_app. Qed.
Lemma points_kept o c : keeps_points o -> m_points (assign o c) = m_points c.
Proof. destruct o, c; simpl; tauto. Qed.
Lemma current_kept s o : keeps_points o -> s = create (settings s) -> step s o = create (settings (step s o)).
Proof.
  intros K E. destruct o; simpl in K; try tauto; rewrite E; unfold create, make_lines, step; cbn [settings lines]; auto;
    destruct (settings s); reflexivity.
Qed.
Lemma current_run h : forall s, Forall keeps_points h -> s = create (settings s) -> run s h = create (settings (run s h)).
Proof.
  induction h as [|o h IH]; intros s F E; [exact E|].
  inversion F; subst. cbn [run fold_left]. apply IH; auto. now apply current_kept.
Qed.
Lemma make_lines_current s : make_lines s = create (settings (make_lines s)).
Proof. destruct s; reflexivity. Qed.

(** ** Readings of an object whose lines are those of its points *)
Definition estimate_of (c : calibration) (fg : (point * point) * (point * point)) : list (point * number) :=
  match intersection (snd (fst fg)) (fst (fst fg)) (snd (snd fg)) (fst (snd fg)) with
  | Some p => if within c p then [(p, distance_from c ((fst (fst fg), fst (snd fg)), (snd (fst fg), snd (snd fg))))] else []
  | None => []
  end.
Lemma select_map {A B} (f : A -> B) (g : A -> bool) l : select (map f l) (map g l) = Some (map f (filter g l)).
Proof.
  unfold select. rewrite !map_length, Nat.eqb_refl. f_equal.
  induction l as [|a l IH]; [reflexivity|]. simpl. destruct (g a); simpl; rewrite IH; reflexivity.
Qed.
Lemma pxy_all_eq s : pxy_all s =
  if (length (m_points (settings s)) <? 2)%nat then None
  else Some (map fst (flat_map (estimate_of (settings s)) (pairs (m_points (settings s))))).
Proof.
  unfold pxy_all, mask. destruct (_ <? 2)%nat; [reflexivity|]. cbn [bind].
  unfold intersections. rewrite map_map, select_map. cbn [option_map]. f_equal.
  induction (pairs (m_points (settings s))) as [|fg l IH]; [reflexivity|].
  cbn [filter flat_map]. rewrite map_app. unfold estimate_of at 1.
  destruct (intersection _ _ _ _) as [p|] eqn:E; [|exact IH].
  destruct (within _ p); [|exact IH]. cbn [map flat_map app fst]. rewrite E, IH. reflexivity.
Qed.
Lemma pcz_all_eq c : pcz_all (create c) =
  if (length (m_points c) <? 2)%nat then None else Some (map snd (flat_map (estimate_of c) (pairs (m_points c)))).
Proof.
  unfold pcz_all, mask, create, make_lines. cbn [settings lines]. destruct (_ <? 2)%nat; [reflexivity|]. cbn [bind].
  unfold intersections, lines_between. cbn [settings]. rewrite !map_map, select_map. f_equal.
  induction (pairs (m_points c)) as [|fg l IH]; [reflexivity|].
  cbn [filter flat_map]. rewrite map_app. unfold estimate_of at 1.
  destruct (intersection _ _ _ _) as [p|]; [|exact IH].
  destruct (within c p); [|exact IH]. cbn [map app snd]. rewrite IH. reflexivity.
Qed.
Lemma combine_fst_snd {A B C} (f : A -> C) (l : list (A * B)) : combine (map f (map fst l)) (map snd l) = map (fun e => (f (fst e), snd e)) l.
Proof. induction l as [|[a b] l IH]; [reflexivity|]. simpl. now rewrite IH. Qed.
Lemma read_pc_all_eq c : read_pc_all (create c) =
  if (length (m_points c) <? 2)%nat then None
  else Some (map (fun e => (pc_xy c (fst e), snd e)) (flat_map (estimate_of c) (pairs (m_points c)))).
Proof.
  unfold read_pc_all. rewrite pxy_all_eq, pcz_all_eq. change (settings (create c)) with c.
  destruct (_ <? 2)%nat; [reflexivity|]. cbn [bind]. f_equal. apply combine_fst_snd.
Qed.

(** ** Order of the features *)
Lemma det_denominator p1 p2 p3 p4 : intersection p3 p4 p1 p2 = intersection p1 p2 p3 p4.
Proof.
  destruct p1 as [x1 y1], p2 as [x2 y2], p3 as [x3 y3], p4 as [x4 y4]. unfold intersection. cbv zeta.
  set (d := det2 (det2 x1 1 x2 1) (det2 y1 1 y2 1) (det2 x3 1 x4 1) (det2 y3 1 y4 1)).
  set (d' := det2 (det2 x3 1 x4 1) (det2 y3 1 y4 1) (det2 x1 1 x2 1) (det2 y1 1 y2 1)).
  assert (E : d' = - d) by (unfold d, d', det2; ring).
  destruct (Req_EM_T d' 0) as [Z|N], (Req_EM_T d 0) as [Z'|N']; try reflexivity; try (exfalso; lra).
  rewrite E. f_equal. f_equal.
  - replace (det2 (det2 x3 y3 x4 y4) (det2 x3 1 x4 1) (det2 x1 y1 x2 y2) (det2 x1 1 x2 1))
      with (- det2 (det2 x1 y1 x2 y2) (det2 x1 1 x2 1) (det2 x3 y3 x4 y4) (det2 x3 1 x4 1)) by (unfold det2; ring).
    field. auto.
  - replace (det2 (det2 x3 y3 x4 y4) (det2 y3 1 y4 1) (det2 x1 y1 x2 y2) (det2 y1 1 y2 1))
      with (- det2 (det2 x1 y1 x2 y2) (det2 y1 1 y2 1) (det2 x3 y3 x4 y4) (det2 y3 1 y4 1)) by (unfold det2; ring).
    field. auto.
Qed.
Lemma intersection_ends p1 p2 p3 p4 : intersection p2 p1 p4 p3 = intersection p1 p2 p3 p4.
Proof.
  destruct p1 as [x1 y1], p2 as [x2 y2], p3 as [x3 y3], p4 as [x4 y4]. unfold intersection. cbv zeta.
  set (d := det2 (det2 x1 1 x2 1) (det2 y1 1 y2 1) (det2 x3 1 x4 1) (det2 y3 1 y4 1)).
  set (d' := det2 (det2 x2 1 x1 1) (det2 y2 1 y1 1) (det2 x4 1 x3 1) (det2 y4 1 y3 1)).
  assert (E : d' = d) by (unfold d, d', det2; ring). rewrite E.
  destruct (Req_EM_T d 0); [reflexivity|].
  f_equal. f_equal; f_equal; unfold det2; ring.
Qed.
Lemma line_length_sym p q : line_length p q = line_length q p.
Proof. unfold line_length. f_equal. ring. Qed.
Lemma estimate_of_swap c f g : estimate_of c (g, f) = estimate_of c (f, g).
Proof.
  unfold estimate_of. cbn [fst snd]. rewrite (det_denominator (snd f) (fst f)).
  destruct (intersection _ _ _ _) as [p|]; [|reflexivity]. destruct (within c p); [|reflexivity].
  f_equal. f_equal. unfold distance_from. cbn [fst snd].
  rewrite (line_length_sym (fst g)), (line_length_sym (snd g)). reflexivity.
Qed.
Lemma permuted_estimates c l l' : Permutation l l' ->
  Permutation (flat_map (estimate_of c) (pairs l)) (flat_map (estimate_of c) (pairs l')).
Proof.
  intros P. induction P as [|x l l' P IH|x y l|l l' l'' P1 IH1 P2 IH2].
  - constructor.
  - cbn [pairs]. rewrite !flat_map_app. apply Permutation_app; [|exact IH].
    apply Permutation_flat_map. now apply Permutation_map.
  - cbn [pairs map app]. cbn [flat_map]. rewrite (estimate_of_swap c x y), !flat_map_app.
    apply Permutation_app_head. rewrite !app_assoc. apply Permutation_app_tail. apply Permutation_app_comm.
  - etransitivity; eauto.
Qed.
Lemma sum_permuted l l' : Permutation l l' -> sum l = sum l'.
Proof. intros P. induction P; unfold sum in *; simpl; try lra. Qed.
Lemma existsb_permuted {A} (f : A -> bool) l l' : Permutation l l' -> existsb f l = existsb f l'.
Proof.
  intros P. induction P as [|x l l' P IH|x y l|l l' l'' P1 IH1 P2 IH2]; simpl; try congruence; auto.
  destruct (f x), (f y); reflexivity.
Qed.
Lemma nanmean_permuted l l' : Permutation l l' -> nanmean l = nanmean l'.
Proof.
  intros P. unfold nanmean. rewrite (existsb_permuted _ _ _ P). destruct (existsb _ l'); [reflexivity|].
  assert (Q : Permutation (finite_part l) (finite_part l')) by (unfold finite_part; now apply Permutation_flat_map).
  revert Q. generalize (finite_part l) (finite_part l'). intros a b Q.
  destruct a as [|x a], b as [|y b].
  - reflexivity.
  - apply Permutation_nil in Q. discriminate Q.
  - symmetry in Q. apply Permutation_nil in Q. discriminate Q.
  - rewrite (sum_permuted _ _ Q), (Permutation_length Q). reflexivity.
Qed.

(** ** Exchanged patterns *)
Lemma pairs_map {A B} (f : A -> B) l : pairs (map f l) = map (fun p => (f (fst p), f (snd p))) (pairs l).
Proof.
  induction l as [|a l IH]; [reflexivity|]. cbn [pairs map]. rewrite map_app, !map_map, IH. reflexivity.
Qed.

(** ** Stars lie on lines *)
Lemma intersection_on_lines p1 p2 p3 p4 p : intersection p1 p2 p3 p4 = Some p -> on_line p (p1, p2) /\ on_line p (p3, p4).
Proof.
  destruct p1 as [x1 y1], p2 as [x2 y2], p3 as [x3 y3], p4 as [x4 y4]. unfold intersection. cbv zeta.
  set (d := det2 (det2 x1 1 x2 1) (det2 y1 1 y2 1) (det2 x3 1 x4 1) (det2 y3 1 y4 1)).
  destruct (Req_EM_T d 0) as [|N]; [discriminate|]. intros [= <-]. unfold on_line. cbn [fst snd].
  assert (K : forall nx ny a b c e, (nx - a * d) * c = (ny - b * d) * e -> (nx / d - a) * c = (ny / d - b) * e).
  { intros nx ny a b c e H. replace (nx / d - a) with ((nx - a * d) / d) by (field; auto).
    replace (ny / d - b) with ((ny - b * d) / d) by (field; auto). unfold Rdiv.
    rewrite (Rmult_comm (nx - a * d)), (Rmult_comm (ny - b * d)), !Rmult_assoc, H. reflexivity. }
  split; apply K; unfold d, det2; ring.
Qed.
Lemma within_spec c p : within c p = true <-> in_pattern c p.
Proof.
  unfold within, in_pattern. repeat destruct (Rlt_dec _ _); split; intros H; try discriminate; try tauto; try lra.
Qed.
Lemma in_pairs_length {A} (l : list A) : (length (pairs l) + length (pairs l) = length l * (length l - 1))%nat.
Proof.
  induction l as [|a l IH]; [reflexivity|]. cbn [pairs length]. rewrite app_length, map_length.
  destruct (length l) as [|n]; [lia|]. replace (S (S n) - 1)%nat with (S n) by lia.
  replace (S n - 1)%nat with n in IH by lia. nia.
Qed.
