(** C85: which phases count as the same, and what refinement accepts. *)
From Coq Require Import String List ZArith QArith Qabs Bool Arith Lia Lqa.
From Verif Require Import Model.Binary Model.DictIndex Model.RefinementResults Model.RefinementInput Props.RefinementResults Spec.PhaseSpec.
Import ListNotations.
Local Open Scope Q_scope.

Lemma isclose_near a b : isclose default_atol a b = true <-> near a b.
Proof. unfold isclose, near, default_atol. apply Qle_bool_iff. Qed.
Lemma near_refl a : near a a.
Proof.
  unfold near. setoid_replace (a - a) with 0 by ring. change (Qabs 0) with 0. pose proof (Qabs_nonneg a). nra.
Qed.
Lemma near_small a b : near a b -> Qabs (a - b) <= (1 # 100000000) + (1 # 100000) * Qabs b.
Proof. trivial. Qed.
Lemma near_integers m n : (1 <= n <= 230)%Z -> near (inject_Z m) (inject_Z n) <-> m = n.
Proof.
  intros N. split; [|intros ->; apply near_refl]. unfold near. intros H.
  assert (A : Qabs (inject_Z n) == inject_Z n) by (apply Qabs_pos; change 0 with (inject_Z 0); rewrite <- Zle_Qle; lia).
  rewrite A in H. assert (B : inject_Z n <= 230) by (change 230 with (inject_Z 230); rewrite <- Zle_Qle; lia).
  assert (C : Qabs (inject_Z m - inject_Z n) < 1) by (eapply Qle_lt_trans; [exact H|]; lra).
  assert (D : inject_Z m - inject_Z n == inject_Z (m - n)) by (unfold Qminus; rewrite <- inject_Z_opp, <- inject_Z_plus; reflexivity).
  rewrite D in C. change 1 with (inject_Z 1) in C. assert (E : Qabs (inject_Z (m - n)) = inject_Z (Z.abs (m - n))) by reflexivity. rewrite E in C. rewrite <- Zlt_Qlt in C. lia.
Qed.

Lemma agree_names p q : negb (String.eqb (name p) (name q)) = false <-> agree Names p q.
Proof. cbn. rewrite negb_false_iff. apply String.eqb_eq. Qed.
Lemma agree_space_groups p q : valid p -> valid q -> negb (close_nan (option_map inject_Z (space_group p)) (option_map inject_Z (space_group q))) = false <-> agree SpaceGroups p q.
Proof.
  unfold valid. cbn. intros P Q. rewrite negb_false_iff. destruct (space_group p) as [m|], (space_group q) as [n|]; cbn; try (split; congruence).
  rewrite isclose_near, near_integers by assumption. split; congruence.
Qed.
Lemma flat_length l : length (flat l) = (4 * length l)%nat.
Proof. induction l as [|[[[a b] c] d] l IH]; [reflexivity|]. change (flat ((a, b, c, d) :: l)) with (a :: b :: c :: d :: flat l). cbn [length]. rewrite IH. lia. Qed.
Lemma allclose_flat l k : length l = length k -> allclose default_atol (flat l) (flat k) = true <-> Forall2 same_operation l k.
Proof.
  revert k. induction l as [|[[[a b] c] d] l IH]; intros [|[[[a' b'] c'] d'] k] L; cbn in L; try lia; [split; [constructor|reflexivity]|].
  specialize (IH k ltac:(lia)). change (flat ((a, b, c, d) :: l)) with (a :: b :: c :: d :: flat l). change (flat ((a', b', c', d') :: k)) with (a' :: b' :: c' :: d' :: flat k). unfold allclose in *. cbn [combine forallb fst snd]. rewrite !andb_true_iff, !isclose_near, IH.
  split; [intros (A & B & C & D & E); constructor; cbn; auto|]. intros H. inversion H as [|? ? ? ? S F]; subst. cbn in S. tauto.
Qed.
Lemma Forall2_len {A B} (P : A -> B -> Prop) l k : Forall2 P l k -> length l = length k.
Proof. induction 1; cbn; congruence. Qed.
Lemma agree_point_groups p q : (negb (group_size (group p) =? group_size (group q))%nat || negb (close_groups (group p) (group q)) = false) <-> agree PointGroups p q.
Proof.
  cbn. rewrite orb_false_iff, !negb_false_iff, Nat.eqb_eq. destruct (group p) as [g|], (group q) as [h|]; cbn; try (split; [intros (? & E); discriminate|intros []]); [|tauto].
  rewrite !flat_length. split.
  - intros (L & C). apply allclose_flat; [lia|assumption].
  - intros F. pose proof (Forall2_len _ _ _ F) as L. split; [lia|]. now apply allclose_flat.
Qed.
Lemma agree_number p q : negb (length (atoms p) =? length (atoms q))%nat = false <-> agree NumberOfAtoms p q.
Proof. cbn. rewrite negb_false_iff. apply Nat.eqb_eq. Qed.
Lemma agree_lattice p q : negb (allclose default_atol (abcABG (cell p)) (abcABG (cell q))) = false <-> agree LatticeParameters p q.
Proof. cbn. unfold allclose, same_lattice. rewrite negb_false_iff. cbn. rewrite !andb_true_iff, !isclose_near. tauto. Qed.
Lemma agree_atoms p q : length (atoms p) = length (atoms q) ->
  existsb (fun ab => atoms_differ (fst ab) (snd ab)) (combine (atoms p) (atoms q)) = false <-> agree Atoms p q.
Proof.
  cbn. generalize (atoms p) (atoms q). intros l. induction l as [|a l IH]; intros [|b k] L; cbn in L; try lia; [split; [constructor|reflexivity]|].
  specialize (IH k ltac:(lia)). cbn. rewrite orb_false_iff, IH.
  assert (A : atoms_differ a b = false <-> same_atom a b).
  { unfold atoms_differ, same_atom. rewrite !orb_false_iff, !negb_false_iff, String.eqb_eq. unfold allclose, close_occupancies.
    destruct (xyz a) as [[x y] z], (xyz b) as [[x' y'] z']. cbn. rewrite !andb_true_iff, !isclose_near.
    destruct (occupancy a) as [u|], (occupancy b) as [v|].
    - rewrite isclose_near. split; [intros ((? & ? & ? & ? & _) & ?); eauto 12|]. intros (? & ? & u' & v' & U & V & ?). injection U as <-. injection V as <-. tauto.
    - split; [intros (_ & ?); discriminate|intros (_ & _ & u' & v' & _ & V & _); discriminate].
    - split; [intros (_ & ?); discriminate|intros (_ & _ & u' & v' & V & _); discriminate].
    - split; [intros (_ & ?); discriminate|intros (_ & _ & u' & v' & V & _); discriminate]. }
  rewrite A. split; [intros (? & ?); now constructor|intros H; inversion H; now subst].
Qed.

Ltac bad d X := split; [split; [discriminate|intros H; specialize (H d); apply X in H; discriminate]|
  intros ? D; injection D as <-; intros H; apply X in H; discriminate].
(** Phases are told to be equal if and only if they agree in all respects; otherwise the respect which is reported is one in which they do not. *)
Theorem C85_equal_phases : forall p q, valid p -> valid q ->
  (equal_phase p q = None <-> same_phase p q) /\ (forall d, equal_phase p q = Some d -> ~ agree d p q).
Proof.
  intros p q P Q.
  pose proof (agree_names p q) as N. pose proof (agree_space_groups p q P Q) as S. pose proof (agree_point_groups p q) as G.
  pose proof (agree_number p q) as C. pose proof (agree_lattice p q) as L. pose proof (agree_atoms p q) as A.
  unfold equal_phase.
  destruct (negb (String.eqb (name p) (name q))); [|destruct (negb (close_nan _ _)); [|destruct (negb (group_size _ =? _)%nat || _);
    [|destruct (negb (length (atoms p) =? _)%nat) eqn:E; [|destruct (negb (allclose _ _ _)); [|destruct (existsb _ _)]]]]].
  - bad Names N.
  - bad SpaceGroups S.
  - bad PointGroups G.
  - bad NumberOfAtoms C.
  - bad LatticeParameters L.
  - bad Atoms (A (proj1 C eq_refl)).
  - split; [|discriminate]. split; [intros _|reflexivity].
    intros []; [now apply N|now apply S|now apply G|now apply C|now apply L|now apply (A (proj1 C eq_refl))].
Qed.
Print Assumptions C85_equal_phases.

Lemma near_refl3 p : same_position p p.
Proof. destruct p as [[x y] z]. repeat split; apply near_refl. Qed.
Lemma Forall2_self {A} (P : A -> A -> Prop) l : (forall x, In x l -> P x x) -> Forall2 P l l.
Proof. induction l as [|x l IH]; intros H; constructor; [apply H; now left|apply IH; intros; apply H; now right]. Qed.
Definition occupied (p : phase) : Prop := forall a, In a (atoms p) -> occupancy a <> None.
(** Everything but the atoms. *)
Lemma agree_self d p : d <> Atoms -> agree d p p.
Proof.
  intros N. destruct d; cbn; try reflexivity; try contradiction.
  - destruct (group p) as [g|]; [|exact I]. cbn. apply Forall2_self. intros [[[a b] c] e] _. cbn. repeat split; apply near_refl.
  - unfold same_lattice. repeat split; apply near_refl.
Qed.
(** A phase is equal to itself if all occupancies are numbers. *)
Theorem C85_equal_to_itself : forall p, valid p -> (equal_phase p p = None <-> occupied p).
Proof.
  intros p V. rewrite (proj1 (C85_equal_phases p p V V)). split.
  - intros S a I. specialize (S Atoms). cbn in S. revert I. generalize (atoms p) S. clear. intros l F. 
    assert (G : forall l k, Forall2 same_atom l k -> In a l -> occupancy a <> None).
    { induction 1 as [|x y l' k' H F' IH]; [intros []|]. intros [<-|I]; [|now apply IH]. destruct H as (_ & _ & u & v & E & _). congruence. }
    exact (G l l F).
  - intros O d. destruct d; try (apply agree_self; discriminate). cbn. apply Forall2_self. intros a I. split; [reflexivity|]. split; [apply near_refl3|].
    specialize (O a I). destruct (occupancy a) as [u|]; [|contradiction]. exists u, u. repeat split. apply near_refl.
Qed.
Print Assumptions C85_equal_to_itself.

(** Being equal is not symmetric or transitive. *)
Definition cubic (a : Q) : phase := Phase "ni" (Some 225%Z) None (Lattice a a a 90 90 90) [].
Theorem C85_symmetric_refuted : exists p q, valid p /\ valid q /\ equal_phase p q = None /\ equal_phase q p = Some LatticeParameters.
Proof. exists (cubic 1000), (cubic (10000100001 # 10000000)). unfold valid. cbn. repeat split; try lia; vm_compute; reflexivity. Qed.
Theorem C85_transitive_refuted : exists p q r, valid p /\ valid q /\ valid r /\ equal_phase p q = None /\ equal_phase q r = None /\ equal_phase p r = Some LatticeParameters.
Proof. exists (cubic 1000), (cubic (100001 # 100)), (cubic (100002 # 100)). unfold valid. cbn. repeat split; try lia; vm_compute; reflexivity. Qed.
(** It is symmetric for numbers that differ less. *)
Theorem C85_symmetric_if_closer : forall a b, Qabs (a - b) <= (1 # 100001) * Qabs b -> near a b /\ near b a.
Proof.
  intros a b H. pose proof (Qabs_nonneg b) as B. pose proof (Qabs_triangle_reverse b a) as T.
  assert (S : Qabs (b - a) == Qabs (a - b)) by (rewrite Qabs_Qminus; reflexivity). rewrite S in T. unfold near. rewrite S. split; lra.
Qed.

(** The order of atoms counts, and so does the unit cell that coordinates are given in. *)
Definition with_atoms (p : phase) (l : list atom) : phase := Phase (name p) (space_group p) (group p) (cell p) l.
Lemma with_atoms_differ p l k : valid p -> length l = length k -> ~ Forall2 same_atom l k -> equal_phase (with_atoms p l) (with_atoms p k) = Some Atoms.
Proof.
  intros V L N. destruct (C85_equal_phases (with_atoms p l) (with_atoms p k) V V) as (A & B). destruct (equal_phase _ _) as [d|]; [|exfalso; apply N; exact (proj1 A eq_refl Atoms)].
  specialize (B d eq_refl). assert (D : d = NumberOfAtoms \/ d = Atoms \/ (d <> NumberOfAtoms /\ d <> Atoms)) by (destruct d; (now left) || (right; now left) || (right; right; split; discriminate)).
  destruct D as [->|[->|[D D']]]; [contradiction|reflexivity|]. exfalso. apply B. pose proof (agree_self d p D') as G. destruct d; try contradiction; exact G.
Qed.
Theorem C85_order_of_atoms_refuted : forall p a b rest, valid p -> element a <> element b ->
  equal_phase (with_atoms p (a :: b :: rest)) (with_atoms p (b :: a :: rest)) = Some Atoms.
Proof. intros p a b rest V N. apply with_atoms_differ; [assumption|reflexivity|]. intros H. inversion H as [|? ? ? ? (E & _)]; subst. contradiction. Qed.
Theorem C85_position_in_next_cell_refuted : forall p e x y z o rest, valid p -> 0 <= x <= 1 ->
  equal_phase (with_atoms p (Atom e (x, y, z) o :: rest)) (with_atoms p (Atom e (x + 1, y, z) o :: rest)) = Some Atoms.
Proof.
  intros p e x y z o rest V X. apply with_atoms_differ; [assumption|reflexivity|]. intros H. inversion H as [|? ? ? ? (_ & P & _)]; subst. destruct P as (N & _). unfold near in N.
  setoid_replace (x - (x + 1)) with (- (1)) in N by ring. change (Qabs (- (1))) with 1 in N. rewrite (Qabs_pos (x + 1)) in N by lra. lra.
Qed.

(** A crystal map is accepted for a signal if and only if it has its shape; step sizes and names of axes can only give warnings. *)
Lemma shape_eqb_eq a b : shape_eqb a b = true <-> a = b.
Proof. unfold shape_eqb. destruct (list_eq_dec Nat.eq_dec a b); split; congruence. Qed.
Theorem C85_map_accepted_by_shape : forall shape dy dx axes, fst (xmap_is_compatible shape dy dx axes) = true <-> shape = map size axes.
Proof.
  intros. unfold xmap_is_compatible. destruct (all_some _) as [s|]; cbn [fst]; apply shape_eqb_eq.
Qed.
(** Axes named y and x: a warning if and only if a step size is not that of the axis of the same name. *)
Definition near_step (a b : Q) : Prop := Qabs (a - b) <= (1 # 1000000) + (1 # 100000) * Qabs b.
Theorem C85_step_sizes_compared_by_name : forall dy dx ny sy nx sx,
  (snd (xmap_is_compatible [ny; nx] dy dx [Axis "y" ny sy; Axis "x" nx sx]) = 0%nat <-> near_step dy sy /\ near_step dx sx) /\
  (snd (xmap_is_compatible [ny; nx] dy dx [Axis "x" ny sx; Axis "y" nx sy]) = 0%nat <-> near_step dy sy /\ near_step dx sx).
Proof.
  intros. unfold xmap_is_compatible, near_step. cbn [map axis_name step_size all_some option_map size scale fst snd String.eqb Ascii.eqb Bool.eqb].
  rewrite (proj2 (shape_eqb_eq _ _) eq_refl). cbn [andb]. unfold allclose. cbn [combine forallb fst snd]. unfold isclose. rewrite !andb_true_r, <- !Qle_bool_iff.
  destruct (Qle_bool (Qabs (dy - sy)) _), (Qle_bool (Qabs (dx - sx)) _); cbn; intuition discriminate.
Qed.
Print Assumptions C85_step_sizes_compared_by_name.

(** What refinement accepts. *)
Section Refinement.
Context {Rotation : Type}.
Definition nav_shape (i : input Rotation) : list nat := map size (axes i).
(** The crystal map has arrays of n elements, one per point (all points, of the data or not), and the mask has its shape.
    A map that was cut out of another keeps the arrays of the latter, so n need not be the number of points of the signal. *)
Definition product (s : list nat) : nat := fold_right Nat.mul 1%nat s.
Definition regular (n : nat) (i : input Rotation) : Prop :=
  length (in_data (xmap i)) = n /\ length (RefinementResults.phases (xmap i)) = n /\ length (rotations (xmap i)) = n /\
  match nav_mask i with Some (s, k) => length k = product s | None => True end.
Definition mask_of (i : input Rotation) : option (list bool) := option_map snd (nav_mask i).
Definition acceptable (n : nat) (i : input Rotation) : Prop :=
  sig i = det_shape i /\ (det_nav i = [1%nat] \/ det_nav i = nav_shape i) /\
  (match sig_mask i with Some s => s = sig i | None => True end) /\
  map_shape (xmap i) = nav_shape i /\ (match nav_mask i with Some (s, _) => s = nav_shape i | None => True end) /\
  (product (nav_shape i) = n \/ (exists m, nav_shape i = [m]) /\ nav_mask i = None) /\
  can_be_projected (mp i) /\
  exists id p, only_phase n (xmap i) (mask_of i) id /\ phases i id = Some p /\ same_phase (m_phase (mp i)) p.

Lemma unsuitable_spec m : unsuitable m = None <-> can_be_projected m.
Proof.
  unfold unsuitable, can_be_projected. destruct (group (m_phase m)) as [g|]; [|split; [discriminate|intros (_ & g & G & _); discriminate]].
  destruct (lambert m), (both_hemispheres m) eqn:B, (contains_inversion g) eqn:C; cbn; split; try discriminate; try reflexivity; try (intros _; split; [reflexivity|exists g; split; [reflexivity|auto]]);
    try (intros (H & g' & G & [H'|H']); try discriminate; injection G as <-; congruence).
Qed.
Lemma error_or_phase ids :
  (if negb ((length (distinct ids) =? 1)%nat || ((length (distinct ids) =? 2)%nat && existsb (Z.eqb (-1)) (distinct ids))) then Some ValueError
   else match filter (fun i => negb (Z.eqb i (-1))) (distinct ids) with [] => Some IndexError | _ => None end) = None <-> exists id, the_phase ids = Some id.
Proof.
  unfold the_phase. destruct ((length (distinct ids) =? 1)%nat || _); cbn [negb].
  - destruct (filter _ _) as [|i l]; split; try discriminate; [intros (? & ?); discriminate|eauto|reflexivity].
  - split; [discriminate|intros (? & ?); discriminate].
Qed.
Lemma size_error {A} (c : bool) (l : list A) sh n :
  (if c then Some ValueError else match l with [] => Some IndexError | _ => if (length sh =? 1)%nat || (fold_right Nat.mul 1 sh =? n)%nat then None else Some ValueError end) = None
  <-> (product sh = n \/ exists m, sh = [m]) /\ (if c then Some ValueError else match l with [] => Some IndexError | _ => None end) = None.
Proof.
  destruct c; [intuition discriminate|]. destruct l as [|x l]; [intuition discriminate|]. unfold product.
  assert (Q : forall b : bool, (if b then None else Some ValueError) = None <-> b = true) by (intros []; intuition discriminate).
  rewrite Q, orb_true_iff, !Nat.eqb_eq. assert (L : length sh = 1%nat <-> exists m, sh = [m]).
  { destruct sh as [|a [|b sh]]; cbn; split; try discriminate; try (intros (? & ?); discriminate); eauto. }
  rewrite L. tauto.
Qed.

(** Refinement goes on if and only if its input is as documented, and then refines the indexed points in the data that are not masked. *)
Theorem C85_refinement_accepts : forall n i, regular n i -> valid (m_phase (mp i)) -> (forall id p, phases i id = Some p -> valid p) ->
  ((exists points, check i = Ok points) <-> acceptable n i) /\
  (forall points, check i = Ok points -> length points = n /\
     forall k, (k < n)%nat -> nth k points false = in_scope (xmap i) (mask_of i) k && negb (Z.eqb (phase_at (xmap i) k) (-1))).
Proof.
  intros n i (L1 & L2 & L3 & L0) Vm Vp.
  destruct (Nat.eq_dec (match nav_mask i with Some (_, k) => length k | None => n end) n) as [L4'|L4'].
  2: { assert (N : forall points, check i <> Ok points).
    { intros points. unfold check. destruct (negb _); [discriminate|]. destruct (match sig_mask i with Some (a, b) => _ | None => false end); [discriminate|].
      destruct (negb _); [discriminate|]. unfold points_error. destruct (nav_mask i) as [[s k]|]; [|now elim L4'].
      destruct (shape_eqb s _); cbn [negb]; [|discriminate]. rewrite L1, (proj2 (Nat.eqb_neq _ _) L4'). discriminate. }
    split; [|intros points H; now elim (N points)]. split; [intros (points & H); now elim (N points)|].
    intros (_ & _ & _ & _ & E & P & _). exfalso. destruct (nav_mask i) as [[s k]|]; [|now elim L4']. subst s.
    destruct P as [P|(_ & P)]; [congruence|discriminate]. }
  assert (L4 : match nav_mask i with Some (_, k) => length k = n | None => True end) by (destruct (nav_mask i) as [[s k]|]; [exact L4'|exact I]).
  assert (Mt : matching (Pattern := unit) (Center := unit) n (xmap i) (mask_of i) (repeat tt n) [tt]).
  { unfold matching, mask_of. repeat split; try assumption; [apply repeat_length|left; reflexivity|]. destruct (nav_mask i) as [[s k]|]; exact L4 || exact I. }
  pose proof (points_spec n (xmap i) (mask_of i) (repeat tt n) [tt] Mt) as PS. unfold mask_of in PS.
  assert (Pe : points_error (xmap i) (nav_mask i) = None <-> (match nav_mask i with Some (s, _) => s = map_shape (xmap i) | None => True end)
    /\ (product (map_shape (xmap i)) = n \/ (exists m, map_shape (xmap i) = [m])) /\ exists id, only_phase n (xmap i) (mask_of i) id).
  { assert (Q : (exists id, the_phase (match mask_of i with Some k => compress (compress (in_data (xmap i)) (map negb k)) (phase_id (xmap i)) | None => compress (is_indexed (xmap i)) (phase_id (xmap i)) end) = Some id)
       <-> exists id, only_phase n (xmap i) (mask_of i) id).
    { split; intros (id & H); exists id; apply (phase_found n (xmap i) (mask_of i) (repeat tt n) [tt] id Mt); exact H. }
    rewrite <- Q, <- error_or_phase. unfold points_error, mask_of. rewrite L1. destruct (nav_mask i) as [[s k]|]; cbn [option_map snd].
    - destruct (shape_eqb s (map_shape (xmap i))) eqn:E; cbn [negb].
      + apply shape_eqb_eq in E. rewrite L4, Nat.eqb_refl. cbn [negb]. cbv zeta; rewrite size_error; tauto.
      + split; [discriminate|]. intros (E' & _). apply shape_eqb_eq in E'. congruence.
    - cbv zeta; rewrite size_error; tauto. }
  assert (D : detector_is_compatible (det_shape i) (det_nav i) (map size (axes i)) (sig i) = true <-> sig i = det_shape i /\ (det_nav i = [1%nat] \/ det_nav i = nav_shape i)).
  { unfold detector_is_compatible, nav_shape. rewrite !andb_true_iff, orb_true_iff, !Nat.eqb_eq, !shape_eqb_eq. destruct (sig i), (det_shape i). cbn. intuition congruence. }
  assert (S : (match sig_mask i with Some (a, b) => negb ((fst (sig i) =? a)%nat && (snd (sig i) =? b)%nat) | None => false end) = false <-> match sig_mask i with Some s => s = sig i | None => True end).
  { destruct (sig_mask i) as [[a b]|]; [|tauto]. rewrite negb_false_iff, andb_true_iff, !Nat.eqb_eq. destruct (sig i). cbn. intuition congruence. }
  pose proof (C85_map_accepted_by_shape (map_shape (xmap i)) (dy i) (dx i) (axes i)) as X.
  pose proof (unsuitable_spec (mp i)) as U.
  assert (R : forall points, check i = Ok points <-> acceptable n i /\ exists kept id, get_points (xmap i) (option_map snd (nav_mask i)) = Some (points, kept, id)).
  { intros points. unfold check, acceptable.
    destruct (detector_is_compatible _ _ _ _); cbn [negb]; [|split; [discriminate|intros ((E1 & E2 & _) & _); assert (false = true) by tauto; discriminate]].
    destruct (match sig_mask i with Some (a, b) => _ | None => false end); [split; [discriminate|intros ((_ & _ & E & _) & _); assert (true = false) by tauto; discriminate]|].
    destruct (fst (xmap_is_compatible _ _ _ _)); cbn [negb]; [|split; [discriminate|intros ((_ & _ & _ & E & _) & _); assert (false = true) by tauto; discriminate]].
    assert (Ms : map_shape (xmap i) = nav_shape i) by (apply X; reflexivity).
    destruct (points_error (xmap i) (nav_mask i)) as [e|].
    { split; [discriminate|]. intros ((_ & _ & _ & _ & E & Sz & _ & id & p & O & _) & _). assert (Some e = None); [|discriminate]. apply Pe. rewrite Ms. split; [assumption|]. split; [tauto|now exists id]. }
    destruct (proj1 Pe eq_refl) as (Pm & Pz & _). rewrite Ms in Pm, Pz.
    assert (Pz' : product (nav_shape i) = n \/ (exists m, nav_shape i = [m]) /\ nav_mask i = None).
    { destruct (nav_mask i) as [[s k]|]; [|tauto]. left. congruence. }
    destruct (get_points _ _) as [[[pts kept] id]|].
    2: { split; [discriminate|]. intros (_ & k & id & H). discriminate. }
    destruct PS as (O & PS).
    destruct (unsuitable (mp i)) as [e|]; [split; [discriminate|intros ((_ & _ & _ & _ & _ & _ & E & _) & _); apply U in E; discriminate]|].
    assert (Uniq : forall id', only_phase n (xmap i) (mask_of i) id' -> id' = id).
    { intros id' (N' & (k & K & S1 & E1) & _). destruct O as (_ & _ & A). destruct (A k K S1) as [E2|E2]; congruence. }
    destruct (phases i id) as [p|] eqn:Ep.
    2: { split; [discriminate|]. intros ((_ & _ & _ & _ & _ & _ & _ & id' & p & O' & P' & _) & _). rewrite (Uniq id' O') in P'. congruence. }
    destruct (C85_equal_phases (m_phase (mp i)) p Vm (Vp id p Ep)) as (Q & _).
    destruct (equal_phase _ _) as [d|].
    { split; [discriminate|]. intros ((_ & _ & _ & _ & _ & _ & _ & id' & p' & O' & P' & Sm) & _). rewrite (Uniq id' O') in P'. assert (p' = p) by congruence. subst p'. apply Q in Sm. discriminate. }
    split.
    - intros H. injection H as <-. split; [|now exists kept, id]. repeat split; try tauto; try (apply U; reflexivity). exists id, p. repeat split; try assumption; try tauto; try (apply O).
    - intros (_ & k & id' & H). congruence. }
  split.
  - split; [intros (points & H); now apply R in H|]. intros A.
    destruct (get_points (xmap i) (option_map snd (nav_mask i))) as [[[pts kept] id]|] eqn:G.
    + exists pts. apply R. split; [assumption|]. now exists kept, id.
    + destruct A as (_ & _ & _ & _ & _ & _ & _ & id & p & O & _). now apply PS in O.
  - intros points H. apply R in H as (A & kept & id & G). rewrite G in PS. destruct PS as (_ & Lp & _ & N). split; [assumption|]. intros k K. now destruct (N k K).
Qed.
Print Assumptions C85_refinement_accepts.

(** If a mask leaves points that are all not indexed, the error is not the documented ValueError. *)
Theorem C85_error_if_not_indexed_refuted : forall n i s k, regular n i -> nav_mask i = Some (s, k) -> s = nav_shape i -> map_shape (xmap i) = nav_shape i -> product (nav_shape i) = n ->
  sig i = det_shape i -> (det_nav i = [1%nat] \/ det_nav i = nav_shape i) -> sig_mask i = None ->
  (exists p, (p < n)%nat /\ in_scope (xmap i) (Some k) p = true) -> (forall p, (p < n)%nat -> in_scope (xmap i) (Some k) p = true -> phase_at (xmap i) p = (-1)%Z) ->
  check i = Error IndexError.
Proof.
  intros n i s k (L1 & L2 & L3 & L4) M S Ms Pn Sg Dn Sm (p & P & Sc) All. unfold check.
  assert (D : detector_is_compatible (det_shape i) (det_nav i) (map size (axes i)) (sig i) = true).
  { unfold detector_is_compatible. rewrite Sg. rewrite !Nat.eqb_refl. cbn [andb]. rewrite orb_true_iff, !shape_eqb_eq. exact Dn. }
  rewrite D, Sm. cbn [negb]. rewrite (proj2 (C85_map_accepted_by_shape _ _ _ _) Ms). cbn [negb]. rewrite M in L4 |- *. rewrite S, Pn in L4.
  assert (Mt : matching (Pattern := unit) (Center := unit) n (xmap i) (Some k) (repeat tt n) [tt]).
  { unfold matching. repeat split; try assumption; [apply repeat_length|left; reflexivity]. }
  unfold points_error. rewrite S, Ms, (proj2 (shape_eqb_eq _ _) eq_refl), L1, L4, Nat.eqb_refl. cbn [negb].
  set (ids := compress (compress (in_data (xmap i)) (map negb k)) (phase_id (xmap i))).
  assert (I : forall j, In j ids <-> j = (-1)%Z).
  { intros j. pose proof (ids_in n (xmap i) (Some k) (repeat tt n) [tt] j Mt) as H. cbv zeta iota in H. fold ids in H. rewrite H. split.
    - intros (q & Q & Sq & E & _). rewrite <- E. now apply All.
    - intros ->. exists p. repeat split; auto. congruence. }
  assert (Di : distinct ids = [(-1)%Z]).
  { unfold distinct. pose proof (NoDup_nodup Z.eq_dec ids) as N. assert (J : forall j, In j (nodup Z.eq_dec ids) <-> j = (-1)%Z) by (intros; rewrite nodup_In; apply I).
    destruct (nodup Z.eq_dec ids) as [|a [|b l]].
    - exfalso. now apply (proj2 (J (-1)%Z)).
    - f_equal. apply J. now left.
    - exfalso. assert (a = (-1)%Z) by (apply J; now left). assert (b = (-1)%Z) by (apply J; right; now left). subst. inversion N as [|? ? N']. apply N'. now left. }
  rewrite Di. reflexivity.
Qed.
Print Assumptions C85_error_if_not_indexed_refuted.

(** A crystal map that was cut out of another, to match patterns cut out of others, has their shape and one phase, but is not accepted: its arrays
    still have all points of the map it was cut out of.  The documentation requires the shape only. *)
Theorem C85_part_of_a_map_refuted : forall n i, regular n i -> product (nav_shape i) <> n -> length (nav_shape i) <> 1%nat -> forall points, check i <> Ok points.
Proof.
  intros n i (L1 & L2 & L3 & L4) P D points. unfold check. destruct (negb _); [discriminate|]. destruct (match sig_mask i with Some (a, b) => _ | None => false end); [discriminate|].
  destruct (negb _) eqn:X; [discriminate|]. apply negb_false_iff, C85_map_accepted_by_shape in X. fold (nav_shape i) in X.
  assert (E : points_error (xmap i) (nav_mask i) <> None); [|destruct (points_error _ _); [discriminate|now elim E]].
  unfold points_error. destruct (match nav_mask i with Some (s, _) => _ | None => false end); [discriminate|].
  destruct (match nav_mask i with Some (_, k) => _ | None => false end); [discriminate|]. cbv zeta.
  destruct (negb _); [discriminate|]. destruct (filter _ _); [discriminate|].
  unfold product in P. rewrite X, L1, (proj2 (Nat.eqb_neq _ _) D), (proj2 (Nat.eqb_neq _ _) P). discriminate.
Qed.
End Refinement.

(** A map of 2 by 3 points, one of which is not indexed and one is masked. *)
Definition ni : phase := Phase "ni" (Some 225%Z) (Some (PointGroup [(1, 0, 0, 0)] true)) (Lattice (352 # 100) (352 # 100) (352 # 100) 90 90 90) [Atom "Ni" (0, 0, 0) (Some 1)].
Definition ex_input : input unit :=
  Input [Axis "y" 2 (3 # 2); Axis "x" 3 (3 # 2)] (60, 60)%nat (60, 60)%nat [1%nat]
    (Cmap (repeat true 6) [0; 0; -1; 0; 0; 1]%Z (repeat tt 6) [2; 3]%nat) (3 # 2) (3 # 2) (fun id => if (id =? 0)%Z then Some ni else None)
    (Master true false ni) (Some ([2; 3]%nat, [false; false; false; false; false; true])) None.
Example C85_example : regular 6 ex_input /\ check ex_input = Ok [true; true; false; true; true; false].
Proof. split; [repeat split|vm_compute; reflexivity]. Qed.
(** The upper left 2 by 2 points of a map of 2 by 3. *)
Definition ex_part : input unit :=
  Input [Axis "y" 2 (3 # 2); Axis "x" 2 (3 # 2)] (60, 60)%nat (60, 60)%nat [1%nat]
    (Cmap [true; true; false; true; true; false] [0; 0; 0; 0; 0; 0]%Z (repeat tt 6) [2; 2]%nat) (3 # 2) (3 # 2) (fun id => if (id =? 0)%Z then Some ni else None)
    (Master true false ni) None None.
Example C85_part_example : regular 6 ex_part /\ product (nav_shape ex_part) = 4%nat /\ check ex_part = Error ValueError
  /\ check (Input (axes ex_part) (sig ex_part) (det_shape ex_part) (det_nav ex_part) (Cmap (repeat true 4) (repeat 0%Z 4) (repeat tt 4) [2; 2]%nat) (dy ex_part) (dx ex_part) (phases ex_part)
      (mp ex_part) None None) = Ok (repeat true 4).
Proof. repeat split; vm_compute; reflexivity. Qed.
