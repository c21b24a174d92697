(** C80: Hough indexing of a signal. *)
From Coq Require Import String.
From Coq Require Import List Arith ZArith QArith Qabs Bool Reals Lia Lqa.
From Verif Require Import Model.Binary Model.HoughData Model.Hough Spec.HoughSpec.
From Verif Require Model.Detector Model.RefinementObjective Props.HoughData.
Import ListNotations.
Local Open Scope nat_scope.

Section C.
Context {Arr Vectors Families Pat Quat Other : Type} (identity : Quat).
Context (families_of_hkl : phase -> reflectors Arr Vectors -> Families) (families_of_vectors : Vectors -> Families).
Notation get_phaselist := (get_phaselist Arr Vectors Families families_of_hkl families_of_vectors).
Notation get_indexer := (get_indexer Arr Vectors Families families_of_hkl families_of_vectors).
Notation indexer := (indexer Families).
Notation FromList := (FromList Arr Vectors).
Notation NoReflectors := (NoReflectors Arr Vectors).

(** ** Lists of phases *)

Lemma qabs_0 : forall x, (Qabs (x - x) == 0)%Q.
Proof. intro x. setoid_replace (x - x)%Q with 0%Q by ring. reflexivity. Qed.
Lemma isclose_refl : forall x, isclose x x = true.
Proof.
  intro x. unfold isclose. apply Qle_bool_iff. rewrite qabs_0. pose proof (Qabs_nonneg x). lra.
Qed.
Lemma allclose_refl : forall l, allclose l l = true.
Proof.
  unfold allclose. induction l as [|x l IH]; [reflexivity|]. cbn [combine forallb fst snd]. rewrite isclose_refl. exact IH.
Qed.
Lemma allclose_similar : forall a b, length a = length b -> (allclose a b = true <-> similar_lattices a b).
Proof.
  unfold allclose, similar_lattices. induction a as [|x a IH]; intros [|y b] E; cbn in E; try discriminate.
  - split; [constructor|reflexivity].
  - cbn [combine forallb fst snd]. rewrite andb_true_iff, IH by lia. unfold isclose. rewrite Qle_bool_iff. split.
    + intros [H1 H2]. constructor; assumption.
    + intros H. inversion H; subst. split; assumption.
Qed.

(** An indexer made for a list of phases has the phases of the list in their order, each with its own
    reflectors, and is accepted together with this list. *)
Theorem C80_phases_of_an_indexer : forall l sets bands,
  length sets = length l -> get_phaselist l (FromList sets) = Some bands ->
  length bands = length l /\
  forall n id p r, nth_error l n = Some (id, p) -> nth_error sets n = Some r ->
    exists sg, space_group p = Some sg /\
    nth_error bands n = Some (Band _ (name p) sg (lattice p)
      match r with
      | FromVectors _ _ v => Some (families_of_vectors v)
      | FromArray _ _ _ | Hough.FromList _ _ _ => Some (families_of_hkl p r)
      | _ => None
      end).
Proof.
  intros l sets bands E H. unfold Hough.get_phaselist, listed in H. rewrite E, Nat.eqb_refl in H. cbn [negb] in H.
  rewrite E, Nat.eqb_refl in H. cbn [negb bind] in H.
  revert sets bands E H. induction l as [|[id p] l IH]; intros [|r sets] bands E H; cbn in E; try discriminate.
  - injection H as <-. split; [reflexivity|]. intros [|n]; discriminate.
  - cbn [bands_of] in H. destruct (band_of _ _ _ _ _ p r) as [b|] eqn:EB; [|discriminate]. cbn [bind] in H.
    destruct (bands_of _ _ _ _ _ l sets) as [bs|] eqn:EBS; [|discriminate]. cbn [bind] in H. injection H as <-.
    destruct (IH sets bs ltac:(lia) EBS) as [L N]. split; [cbn; lia|].
    intros [|n] id' p' r' Hl Hs; cbn in Hl, Hs |- *; [|apply (N n id'); assumption].
    injection Hl as <- <-. injection Hs as <-. unfold band_of in EB. destruct (space_group p) as [sg|]; [|discriminate].
    exists sg. split; [reflexivity|]. injection EB as <-. reflexivity.
Qed.
Lemma bands_match : forall l sets bands, length sets = length l ->
  bands_of Arr Vectors Families families_of_hkl families_of_vectors l sets = Some bands ->
  length bands = length l /\ phases_match _ l bands = Some true.
Proof.
  induction l as [|[id p] l IH]; intros [|r sets] bands E H; cbn in E; try discriminate.
  - injection H as <-. split; reflexivity.
  - cbn [bands_of] in H. destruct (band_of _ _ _ _ _ p r) as [b|] eqn:EB; [|discriminate]. cbn [bind] in H.
    destruct (bands_of _ _ _ _ _ l sets) as [bs|] eqn:EBS; [|discriminate]. cbn [bind] in H. injection H as <-.
    destruct (IH sets bs ltac:(lia) EBS) as [L N]. split; [cbn; lia|].
    unfold band_of in EB. cbn [phases_match]. destruct (space_group p) as [sg|]; [|discriminate]. injection EB as <-.
    cbn [bind b_lattice b_spacegroup]. rewrite allclose_refl, Z.eqb_refl. exact N.
Qed.
Theorem C80_own_phase_list_is_accepted : forall d l r i,
  get_indexer d l r = Some i -> phase_lists_are_compatible _ l i = Some true.
Proof.
  intros d l r i H. unfold Hough.get_indexer, Hough.get_phaselist in H.
  destruct (listed _ _ (length l) r) as [sets|] eqn:EL; [|discriminate]. cbn [bind] in H.
  destruct (bands_of _ _ _ _ _ l sets) as [bands|] eqn:EB; [|discriminate]. cbn [bind] in H. injection H as <-.
  assert (L : length sets = length l).
  { unfold listed in EL. destruct (negb _) eqn:N in EL; [discriminate|]. injection EL as <-.
    apply negb_false_iff, Nat.eqb_eq in N. exact N. }
  destruct (bands_match l sets bands L EB) as [LB M].
  unfold phase_lists_are_compatible. cbn [i_phases]. rewrite LB, Nat.eqb_refl. exact M.
Qed.
(** Without reflectors each phase has the default ones, and a space group is needed for each phase. *)
Theorem C80_indexer_needs_space_groups : forall d l,
  (exists i, get_indexer d l NoReflectors = Some i) <-> Forall (fun ip => space_group (snd ip) <> None) l.
Proof.
  intros d l. unfold Hough.get_indexer, Hough.get_phaselist, listed. rewrite repeat_length, Nat.eqb_refl. cbn [negb bind].
  assert (K : (exists bands, bands_of Arr Vectors Families families_of_hkl families_of_vectors l (repeat NoReflectors (length l)) = Some bands)
    <-> Forall (fun ip => space_group (snd ip) <> None) l).
  { induction l as [|[id p] l IH]; [split; [constructor|eexists; reflexivity]|]. cbn [length repeat bands_of]. unfold band_of. split.
    - intros [bands H]. destruct (space_group p) as [sg|] eqn:E; [|discriminate]. cbn [bind] in H.
      destruct (bands_of _ _ _ _ _ l _) as [bs|]; [|discriminate]. constructor; [cbn; congruence|apply IH; eauto].
    - intros H. inversion H as [|? ? H1 H2]; subst. cbn [snd] in H1. destruct (space_group p) as [sg|]; [|congruence].
      apply IH in H2. destruct H2 as [bs ->]. eexists. reflexivity. }
  rewrite <- K. split.
  - intros [i H]. destruct (bands_of _ _ _ _ _ l _) as [bs|]; [eauto|discriminate].
  - intros [bs ->]. eexists. reflexivity.
Qed.

(** Accepted lists have as many phases, of the same space groups and of similar lattices, in the same order. *)
Theorem C80_accepted_phases : forall l i,
  (forall n id p b, nth_error l n = Some (id, p) -> nth_error (i_phases _ i) n = Some b -> length (lattice p) = length (b_lattice _ b)) ->
  phase_lists_are_compatible _ l i = Some true <->
  Forall2 (fun ip b => space_group (snd ip) = Some (b_spacegroup Families b) /\ similar_lattices (lattice (snd ip)) (b_lattice Families b)) l (i_phases _ i).
Proof.
  intros l i H. unfold phase_lists_are_compatible. revert H. generalize (i_phases _ i) as bands. clear i. intros bands H.
  transitivity (length l = length bands /\ phases_match _ l bands = Some true).
  { destruct (Nat.eqb_spec (length l) (length bands)); cbn [negb]; split; intros; try discriminate; tauto. }
  revert bands H. induction l as [|[id p] l IH]; intros [|b bands] H; cbn [length phases_match].
  - split; [constructor|intros; split; reflexivity].
  - split; [intros [? _]; discriminate|intros F; inversion F].
  - split; [intros [? _]; discriminate|intros F; inversion F].
  - specialize (IH bands (fun n => H (S n))). pose proof (allclose_similar (lattice p) (b_lattice _ b) (H 0 id p b eq_refl eq_refl)) as A.
    destruct (space_group p) as [sg|] eqn:E; cbn [bind].
    + destruct (allclose _ _) eqn:EA; cbn [negb].
      * destruct (Z.eqb_spec sg (b_spacegroup _ b)) as [->|N]; cbn [negb].
        -- split.
           ++ intros [L M]. constructor; [cbn [snd]; split; [exact E|apply A; reflexivity]|apply IH; split; [lia|exact M]].
           ++ intros F. inversion F as [|? ? ? ? ? F']; subst. apply IH in F'. destruct F'. split; [lia|assumption].
        -- split; [intros [_ ?]; discriminate|]. intros F. inversion F as [|? ? ? ? [F1 _] _]; subst. cbn [snd] in F1. congruence.
      * split; [intros [_ ?]; discriminate|]. intros F. inversion F as [|? ? ? ? [_ F1] _]; subst. cbn [snd] in F1. apply A in F1. discriminate.
    + split; [intros [_ ?]; discriminate|]. intros F. inversion F as [|? ? ? ? [F1 _] _]; subst. cbn [snd] in F1. congruence.
Qed.

(** Lattice parameters are documented to be equal to the 12th decimal: one that differs in the fifth is accepted. *)
Definition nickel (a : Q) : phase := Phase "Ni" (Some 225%Z) [a; a; a; 90; 90; 90]%Q.
Theorem C80_equal_lattices_refuted : exists l (i : indexer),
  phase_lists_are_compatible _ l i = Some true /\
  exists p b, l = [(0%Z, p)] /\ i_phases _ i = [b] /\ ~ equal_lattices (lattice p) (b_lattice _ b).
Proof.
  exists [(0%Z, nickel (3524 # 1000))].
  exists (Indexer _ [Band _ "Ni" 225%Z [352403 # 100000; 352403 # 100000; 352403 # 100000; 90; 90; 90]%Q None] "KIKUCHIPY" [3]
    [Detector.PC (1/2) (1/2) (1/2)] 70 0 (60, 60)).
  split; [reflexivity|]. eexists _, _. split; [reflexivity|]. split; [reflexivity|].
  intro F. inversion F as [|? ? ? ? H]; subst. apply Qle_bool_iff in H. discriminate.
Qed.

(** ** Indexers and signals *)

Definition number (nav : list nat) : nat := fold_right Nat.mul 1 nav.

(** An indexer has the geometry of its detector: projection centers, tilts, and numbers of rows and columns. *)
Theorem C80_indexer_has_the_geometry : forall d l r i, get_indexer d l r = Some i ->
  i_pc _ i = Detector.pcs (Detector.d_pc d) /\ i_sample_tilt _ i = Detector.d_sample_tilt d /\ i_tilt _ i = Detector.d_tilt d /\
  i_shape _ i = (Z.to_nat (Detector.d_ny d), Z.to_nat (Detector.d_nx d)).
Proof.
  intros d l r i H. unfold Hough.get_indexer in H. destruct (get_phaselist l r) as [bands|]; [|discriminate]. cbn [bind] in H. injection H as <-.
  repeat split.
Qed.

(** A detector which fits a signal gives an indexer which fits it. *)
Theorem C80_indexer_of_detector_fits : forall d l r i nav sig,
  get_indexer d l r = Some i ->
  length (Detector.pcs (Detector.d_pc d)) = number (Detector.nav_shape (Detector.d_pc d)) ->
  RefinementObjective.detector_is_compatible d nav sig = true ->
  exists ny nx, sig = [ny; nx] /\ indexer_is_compatible _ i (ny, nx) (Some (number nav)) true = true.
Proof.
  intros d l r i nav sig H E C. unfold RefinementObjective.detector_is_compatible in C. apply andb_true_iff in C. destruct C as [C1 C2].
  destruct (list_eq_dec Nat.eq_dec sig _) as [->|]; [|discriminate]. do 2 eexists. split; [reflexivity|].
  unfold Hough.get_indexer in H. destruct (get_phaselist l r) as [bands|]; [|discriminate]. cbn [bind] in H. injection H as <-.
  unfold indexer_is_compatible. cbn [i_vendor i_shape i_pc_shape fst snd]. rewrite !Nat.eqb_refl. cbn -[Nat.eqb existsb length].
  destruct (Nat.eqb_spec (length (Detector.pcs (Detector.d_pc d))) 1) as [L|L]; [reflexivity|].
  apply orb_true_iff in C2. destruct C2 as [C2|C2]; destruct (list_eq_dec Nat.eq_dec _ _) as [F|]; try discriminate.
  - exfalso. apply L. rewrite E, F. reflexivity.
  - rewrite E, F. cbn [length existsb]. unfold shape_eqb. destruct (list_eq_dec Nat.eq_dec [number nav; 3] [number nav; 3]) as [_|N]; [|congruence].
    cbn. rewrite orb_true_r. reflexivity.
Qed.

(** An accepted indexer has kikuchipy's convention, the shape of the patterns and one PC or one PC per pattern. *)
Theorem C80_accepted_indexer : forall (i : indexer) sig n,
  indexer_is_compatible _ i sig (Some n) true = true <->
  Detector.lower (i_vendor _ i) = "kikuchipy"%string /\ i_shape _ i = sig /\ (i_pc_shape _ i = [3] \/ i_pc_shape _ i = [n; 3]).
Proof.
  intros i [ny nx] n. unfold indexer_is_compatible. rewrite !andb_true_iff, negb_true_iff, orb_false_iff, negb_false_iff.
  rewrite String.eqb_eq, !Nat.eqb_eq. cbn [fst snd existsb]. rewrite orb_false_r, orb_true_iff. unfold shape_eqb.
  destruct (i_shape _ i) as [a b]. cbn [fst snd].
  destruct (list_eq_dec Nat.eq_dec (i_pc_shape _ i) [3]) as [E|E], (list_eq_dec Nat.eq_dec (i_pc_shape _ i) [n; 3]) as [E'|E'];
    rewrite ?E, ?E'; cbn [length Nat.ltb Nat.leb]; intuition congruence.
Qed.

(** ** Results *)

Context (index_pats : indexer -> nat -> list Pat -> results Quat Other) (best : indexer -> Pat -> entry Quat Other).
Notation hough_indexing := (hough_indexing Families Pat Quat Other identity index_pats).

(** The solution of each pattern is at the position of the pattern in the map, whatever the chunk size. *)
Theorem C80_results_at_their_points : forall s l i chunksize m data ny nx dy dx r c p,
  treats_each_pattern index_pats best ->
  nav _ s = [ny; nx] -> steps _ s = [dy; dx] -> length (patterns _ s) = ny * nx ->
  hough_indexing s l i chunksize = Some (m, data) ->
  r < ny -> c < nx -> nth_error (patterns _ s) (r * nx + c) = Some p ->
  nth_error (m_coordinates _ _ m) (r * nx + c) = Some (inject_Z (Z.of_nat r) * dy, inject_Z (Z.of_nat c) * dx)%Q /\
  nth_error (phase_ids (m_points _ _ m)) (r * nx + c) = Some (HoughData.phase (best i p)) /\
  nth_error (rotations (m_points _ _ m)) (r * nx + c) =
    Some (if (HoughData.phase (best i p) =? -1)%Z then identity else quat (best i p)) /\
  nth_error (props (m_points _ _ m)) (r * nx + c) = Some (other (best i p)).
Proof.
  intros s l i chunksize m data ny nx dy dx r c p [T _] EN ES EL H Hr Hc Hp.
  unfold Hough.hough_indexing in H. destruct (negb (indexer_is_compatible _ _ _ _ _)); [discriminate|].
  destruct (phase_lists_are_compatible _ l i) as [[|]|]; cbn [bind negb] in H; try discriminate.
  destruct (xmap_from_data _ _ _ _ _) as [[x d]|] eqn:EX; [|discriminate]. cbn [bind fst snd] in H. injection H as <- <-.
  cbn [m_coordinates m_points]. rewrite EN, ES. split.
  { cbn [coordinates]. clear - Hr Hc.
    assert (G : forall a k, nth_error (flat_map (fun r => map (fun c => (inject_Z (Z.of_nat r) * dy, inject_Z (Z.of_nat c) * dx)%Q) (seq 0 nx)) (seq a k)) (r * nx + c)
      = if r <? k then Some (inject_Z (Z.of_nat (a + r)) * dy, inject_Z (Z.of_nat c) * dx)%Q else None).
    { revert c Hc. induction r as [|r IH]; intros c Hc a [|k]; cbn [seq flat_map Nat.ltb Nat.leb].
      - destruct (0 * nx + c); reflexivity.
      - rewrite nth_error_app1 by (rewrite map_length, seq_length; lia). cbn [Nat.mul Nat.add].
        rewrite nth_error_map, (nth_error_nth' _ 0) by (rewrite seq_length; exact Hc). rewrite seq_nth by exact Hc. cbn [option_map]. rewrite Nat.add_0_r. reflexivity.
      - destruct (S r * nx + c); reflexivity.
      - rewrite nth_error_app2 by (rewrite map_length, seq_length; lia). rewrite map_length, seq_length.
        replace (S r * nx + c - nx) with (r * nx + c) by lia. rewrite (IH ltac:(lia) c Hc (S a) k).
        change (S r <? S k) with (r <? k). replace (S a + r) with (a + S r) by lia. reflexivity. }
    rewrite (G 0 ny). replace (r <? ny) with true by (symmetry; apply Nat.ltb_lt; exact Hr). reflexivity. }
  destruct (T i (Nat.min chunksize (Nat.max (fold_right Nat.mul 1 (nav _ s)) 1)) (patterns _ s)) as [rows ER].
  rewrite ER in EX. unfold xmap_from_data in EX. destruct (2 <? length (nav _ s)); [discriminate|].
  cbn [negb Z.eqb Pos.eqb andb] in EX. unfold py_index in EX. rewrite app_length in EX. cbn [length] in EX.
  replace ((0 <=? -1) && (-1 <? Z.of_nat (length rows + 1)))%Z with false in EX by reflexivity.
  replace ((-1 <? 0) && (- Z.of_nat (length rows + 1) <=? -1))%Z with true in EX.
  2: { symmetry. apply andb_true_iff. split; [reflexivity|]. apply Z.leb_le. lia. }
  cbn [bind] in EX. replace (Z.to_nat (Z.of_nat (length rows + 1) + -1)) with (length rows) in EX by lia.
  rewrite nth_error_app2, Nat.sub_diag in EX by lia. cbn [nth_error bind] in EX. injection EX as <- _.
  cbn [phase_ids rotations props]. rewrite !map_map, !nth_error_map, Hp. cbn [option_map].
  rewrite Props.HoughData.reset_phase, Props.HoughData.reset_quat, Props.HoughData.reset_other. repeat split.
Qed.

(** When the phases are numbered from zero, the phase at each point is the one with which its pattern was indexed:
    it has the space group and a similar lattice. *)
Theorem C80_phases_at_their_points_partial : forall s l i chunksize m data ny nx dy dx r c p,
  treats_each_pattern index_pats best ->
  nav _ s = [ny; nx] -> steps _ s = [dy; dx] -> length (patterns _ s) = ny * nx ->
  (forall n id p b, nth_error l n = Some (id, p) -> nth_error (i_phases _ i) n = Some b -> length (lattice p) = length (b_lattice _ b)) ->
  numbered_from_zero l ->
  hough_indexing s l i chunksize = Some (m, data) ->
  r < ny -> c < nx -> nth_error (patterns _ s) (r * nx + c) = Some p ->
  HoughData.phase (best i p) <> (-1)%Z ->
  exists id ph b, nth_error (phase_ids (m_points _ _ m)) (r * nx + c) = Some id /\ phase_with_id (m_phases _ _ m) id = Some ph /\
    nth_error (i_phases _ i) (Z.to_nat (HoughData.phase (best i p))) = Some b /\
    space_group ph = Some (b_spacegroup _ b) /\ similar_lattices (lattice ph) (b_lattice _ b).
Proof.
  intros s l i chunksize m data ny nx dy dx r c p T EN ES EL EW NZ H Hr Hc Hp HI.
  destruct (C80_results_at_their_points s l i chunksize m data ny nx dy dx r c p T EN ES EL H Hr Hc Hp) as (_ & ID & _).
  assert (M : m_phases _ _ m = l /\ phase_lists_are_compatible _ l i = Some true).
  { unfold Hough.hough_indexing in H. destruct (negb (indexer_is_compatible _ _ _ _ _)); [discriminate|].
    destruct (phase_lists_are_compatible _ l i) as [[|]|]; cbn [bind negb] in H; try discriminate.
    destruct (xmap_from_data _ _ _ _ _) as [xd|]; [|discriminate]. cbn [bind] in H. injection H as <- _. split; reflexivity. }
  destruct M as [-> C]. apply (C80_accepted_phases l i EW) in C.
  destruct T as [_ T]. destruct (T i p) as [T'|T']; [contradiction|].
  set (k := Z.to_nat (HoughData.phase (best i p))).
  assert (Hk : k < length (i_phases _ i)) by (unfold k; lia).
  destruct (nth_error (i_phases _ i) k) as [b|] eqn:EB; [|apply nth_error_None in EB; lia].
  assert (F : exists ip, nth_error l k = Some ip /\ space_group (snd ip) = Some (b_spacegroup _ b) /\ similar_lattices (lattice (snd ip)) (b_lattice _ b)).
  { clear - C EB. clearbody k. revert k EB. induction C as [|ip b' l bands [C1 C2] F IH]; intros [|k] EB; cbn in EB; try discriminate.
    - injection EB as ->. exists ip. repeat split; assumption.
    - apply (IH k EB). }
  destruct F as ([id ph] & EP & SG & LA). exists (HoughData.phase (best i p)), ph, b. split; [exact ID|]. split; [|repeat split; assumption].
  replace (HoughData.phase (best i p)) with (Z.of_nat k) by (unfold k; lia). unfold phase_with_id.
  assert (G : forall a, ids l = map Z.of_nat (seq a (length l)) -> find (fun ip => (fst ip =? Z.of_nat (a + k))%Z) l = Some (id, ph)).
  { clear - EP. clearbody k. revert k EP. induction l as [|[id' ph'] l IH]; intros [|k] EP a E; cbn in EP; try discriminate.
    - injection EP as -> ->. cbn in E. injection E as E _. cbn [find fst]. rewrite E, Nat.add_0_r, Z.eqb_refl. reflexivity.
    - unfold ids in E. cbn [map length seq fst] in E. injection E as E1 E2. cbn [find fst].
      replace (id' =? Z.of_nat (a + S k))%Z with false by (symmetry; apply Z.eqb_neq; lia).
      replace (a + S k) with (S a + k) by lia. apply IH; assumption. }
  specialize (G 0 NZ). cbn [Nat.add] in G. rewrite G. reflexivity.
Qed.
End C.
Print Assumptions C80_phases_at_their_points_partial.

(** Otherwise a pattern indexed with one phase can be given another one: here the second of the two phases with IDs 1
    and 2. *)
Definition two_phases : phase_list := [(1%Z, nickel (35 # 10)); (2%Z, Phase "Fe" (Some 229%Z) [29 # 10; 29 # 10; 29 # 10; 90; 90; 90]%Q)].
Definition two_bands : list (band_indexer unit) :=
  [Band _ "Ni" 225%Z [35 # 10; 35 # 10; 35 # 10; 90; 90; 90]%Q None; Band _ "Fe" 229%Z [29 # 10; 29 # 10; 29 # 10; 90; 90; 90]%Q None].
Definition two_phase_indexer : indexer unit := Indexer _ two_bands "KIKUCHIPY" [3] [Detector.PC (1/2) (1/2) (1/2)] 70 0 (60, 60).
Definition second_phase (i : indexer unit) (p : unit) : entry unit unit :=
  if 1 <? length (i_phases _ i) then Entry tt 1%Z tt else Entry tt (-1)%Z tt.
Definition find_second_phase (i : indexer unit) (n : nat) (l : list unit) : results unit unit := [map (second_phase i) l].
Definition one_by_two : signal unit := Signal _ [1; 2] [1; 1]%Q (60, 60) [tt; tt].
Lemma find_second_phase_treats_each : treats_each_pattern find_second_phase second_phase.
Proof.
  split.
  - intros i n l. exists []. reflexivity.
  - intros i p. unfold second_phase. destruct (Nat.ltb_spec 1 (length (i_phases _ i))); cbn; [right; lia|left; reflexivity].
Qed.
Theorem C80_phases_at_their_points_refuted : exists (i : indexer unit) l s m data,
  treats_each_pattern find_second_phase second_phase /\
  hough_indexing _ _ _ _ tt find_second_phase s l i 528 = Some (m, data) /\
  exists id ph b, nth_error (phase_ids (m_points _ _ m)) 0 = Some id /\ phase_with_id (m_phases _ _ m) id = Some ph /\
    nth_error (i_phases _ i) (Z.to_nat (HoughData.phase (second_phase i tt))) = Some b /\
    space_group ph <> Some (b_spacegroup _ b).
Proof.
  exists two_phase_indexer, two_phases, one_by_two. eexists _, _. split; [exact find_second_phase_treats_each|].
  split; [reflexivity|]. exists 1%Z, (nickel (35 # 10)). eexists. split; [reflexivity|]. split; [reflexivity|].
  split; [reflexivity|]. discriminate.
Qed.

(** The hypotheses hold for the same phases numbered from zero. *)
Definition from_zero : phase_list := [(0%Z, nickel (35 # 10)); (1%Z, Phase "Fe" (Some 229%Z) [29 # 10; 29 # 10; 29 # 10; 90; 90; 90]%Q)].
Example C80_case : numbered_from_zero from_zero /\ exists m data,
  hough_indexing _ _ _ _ tt find_second_phase one_by_two from_zero two_phase_indexer 528 = Some (m, data) /\
  (forall n id p b, nth_error from_zero n = Some (id, p) -> nth_error (i_phases _ two_phase_indexer) n = Some b -> length (lattice p) = length (b_lattice _ b)) /\
  phase_ids (m_points _ _ m) = [1%Z; 1%Z].
Proof.
  split; [reflexivity|]. do 2 eexists. split; [reflexivity|]. split; [|reflexivity].
  intros [|[|[|n]]] id p b H1 H2; cbn in H1, H2; try discriminate; injection H1 as <- <-; injection H2 as <-; reflexivity.
Qed.

(** ** Optimised projection centers *)
Section Optimize.
Context {Families Pat : Type} (optimize : indexer Families -> Detector.pc3 -> bool -> bool -> list Pat -> list Detector.pc3).
Notation optimize_pc := (optimize_pc Families Pat optimize).

(** One PC per pattern, at the place of the pattern; the detector has the shape of the patterns and the tilts of the
    indexer, and fits the signal. *)
Theorem C80_optimized_pcs : forall s x y z i batch method d fit,
  (forall i p b l, optimize i p true b l = map (fit i p b) l) -> (forall i p b l, length (optimize i p false b l) = 1) ->
  length (patterns _ s) = number (nav _ s) ->
  optimize_pc s [x; y; z] i batch method = Some d ->
  (batch = true -> Detector.nav_shape (Detector.d_pc d) = nav _ s /\
     forall k p, nth_error (patterns _ s) k = Some p ->
       nth_error (Detector.pcs (Detector.d_pc d)) k = Some (fit i (Detector.PC x y z) (String.eqb (Detector.lower method) "pso") p)) /\
  (batch = false -> Detector.nav_shape (Detector.d_pc d) = [1]) /\
  length (Detector.pcs (Detector.d_pc d)) = number (Detector.nav_shape (Detector.d_pc d)) /\
  Detector.d_tilt d = i_tilt _ i /\ Detector.d_sample_tilt d = i_sample_tilt _ i /\
  RefinementObjective.detector_is_compatible d (nav _ s) [fst (sig_shape _ s); snd (sig_shape _ s)] = true.
Proof.
  intros s x y z i batch method d fit HF HO L H. unfold Hough.optimize_pc in H.
  destruct (negb (_ || _)); [discriminate|]. destruct (negb (indexer_is_compatible _ _ _ _ _)); [discriminate|]. injection H as <-.
  cbn [Detector.d_pc Detector.nav_shape Detector.pcs Detector.d_tilt Detector.d_sample_tilt].
  split; [|split; [|split; [|split; [|split]]]]; try reflexivity.
  - intros ->. split; [reflexivity|]. intros k p Hk. rewrite HF, nth_error_map, Hk. reflexivity.
  - intros ->. reflexivity.
  - destruct batch; [rewrite HF, map_length; exact L|rewrite HO; reflexivity].
  - unfold RefinementObjective.detector_is_compatible. cbn [Detector.d_ny Detector.d_nx Detector.d_pc Detector.nav_shape].
    rewrite !Nat2Z.id.
    assert (R : forall l : list nat, (if list_eq_dec Nat.eq_dec l l then true else false) = true)
      by (intro l; destruct (list_eq_dec Nat.eq_dec l l); congruence).
    rewrite R. destruct batch; [rewrite R, orb_true_r|]; reflexivity.
Qed.

(** Everything else of the detector the indexer was made from is lost: the pixel size and binning are one, and the
    detector is not turned about its other axes. *)
Theorem C80_optimized_detector_loses_pixels_refuted : forall s x y z i batch method d,
  optimize_pc s [x; y; z] i batch method = Some d ->
  Detector.d_px_size d = 1%R /\ Detector.d_binning d = 1%R /\ Detector.d_azimuthal d = 0%R /\ Detector.d_twist d = 0%R.
Proof.
  intros s x y z i batch method d H. unfold Hough.optimize_pc in H.
  destruct (negb (_ || _)); [discriminate|]. destruct (negb (indexer_is_compatible _ _ _ _ _)); [discriminate|]. injection H as <-.
  repeat split.
Qed.
End Optimize.
Example C80_case_optimize : exists d,
  optimize_pc unit unit (fun _ p b _ l => if b then map (fun _ => p) l else [p]) one_by_two [1/2; 1/2; 1/2]%R two_phase_indexer true "PSO" = Some d.
Proof. eexists. reflexivity. Qed.
