(** Simulation of patterns without contrast: property C116. *)
From Coq Require Import List Arith ZArith Reals Bool Lra Lia.
From Verif Require Import Model.Detector Model.Rotations Model.Lambert Model.Simulation Model.FlatPatterns Model.FlatSimulation
  Spec.DetectorGeometry Proofs.SimulationProofs Proofs.ListLemmas Props.Simulation.
From Verif Require Model.Pattern Model.Intensity Model.Chunking Proofs.ChunkingProofs Proofs.PatternProofs Props.FlatPatterns.
Import ListNotations.
Local Open Scope R_scope.

(** ** Specification *)

(** What the detector sees of the master pattern: its intensities in the rotated directions of all
    pixels, in reading order. *)
Definition seen (mp : master) (d : detector) (q : quat) (p : pc3) (I : list R) : Prop :=
  exists vs, Forall2 (points_at d p) (pixels d None) vs /\
    I = map (fun v => pixel_from_master_pattern (upper mp) (lower mp) (npx mp) (rotate_vector q v)) vs.
(** The PC for pattern i: the i-th, or the only one. *)
Definition pc_for (d : detector) (i : nat) (p : pc3) : Prop :=
  nth_error (pcs (d_pc d)) (if list_eq_dec Nat.eq_dec (nav_shape (d_pc d)) [1%nat] then 0 else i) = Some p.

(** ** Theorems *)

Lemma pixels_number d : length (pixels d None) = (n_rows d * n_cols d)%nat.
Proof. unfold pixels. now rewrite seq_length. Qed.

(** The same arguments are accepted as in C39, and the result has the same shape. *)
Theorem C116_accepted_as_stated auto mp rot_shape rotations d t chunk_shape :
  option_map fst (patterns_shown auto mp rot_shape rotations d t chunk_shape)
  = option_map fst (get_patterns auto mp rot_shape rotations d t chunk_shape).
Proof.
  unfold patterns_shown, get_patterns. destruct (_ && _)%bool; [reflexivity|]. destruct (2 <? length rot_shape)%nat; [reflexivity|].
  destruct (Chunking.get_chunking auto _ 1 1 chunk_shape); reflexivity.
Qed.
Print Assumptions C116_accepted_as_stated.

Section Shown.
Variables (auto : list Chunking.spec -> list nat -> nat -> nat) (mp : master) (rot_shape : list nat) (rotations : list quat)
  (d : detector) (t : Intensity.dtype) (chunk_shape : option nat).
Hypothesis Hauto : forall specs s i, (1 <= auto specs s i)%nat.
Hypothesis Hd : with_pcs d.
Hypothesis Hrot : length rotations = fold_right Nat.mul 1%nat rot_shape.

Definition shown : quat -> list vec -> list (option R) :=
  project_shown mp t (negb (Simulation.dtype_eqb t (mp_dtype mp)))
    (if negb (Simulation.dtype_eqb t (mp_dtype mp)) then Intensity.dtype_min t else 1)
    (if negb (Simulation.dtype_eqb t (mp_dtype mp)) then Intensity.dtype_max t else 2).

Lemma shown_flat sh l : patterns_shown auto mp rot_shape rotations d t chunk_shape = Some (sh, l) ->
  sh = rot_shape ++ [n_rows d; n_cols d] /\
  l = match direction_cosines d None with
      | OneSet dc => map (fun q => option_map (shown q) (all_some dc)) rotations
      | PerPC dcs => zip_opt (fun q dc => option_map (shown q) (all_some dc)) rotations dcs
      end.
Proof using Hauto Hrot.
  unfold patterns_shown. destruct (_ && _)%bool; [discriminate|]. destruct (2 <? length rot_shape)%nat; [discriminate|].
  destruct (Chunking.get_chunking auto _ 1 1 chunk_shape) as [chunks|] eqn:E; [|discriminate].
  apply nav_chunks_length in E; [|exact Hauto]. rewrite <- Hrot in E.
  intros H. injection H as <- <-. split; [reflexivity|]. fold shown.
  destruct (direction_cosines d None) as [dc|dcs].
  - apply blocks_map_concat. now symmetry.
  - apply (zip_opt_blocks (fun q dc => option_map (shown q) (all_some dc)) (nth 0 chunks []) rotations dcs). now symmetry.
Qed.

Lemma shown_at sh l i q p : patterns_shown auto mp rot_shape rotations d t chunk_shape = Some (sh, l) ->
  nth_error rotations i = Some q -> pc_for d i p ->
  nth_error l i = Some (Some (shown q (map (direction d p) (pixels d None)))) /\ 0 < pcz p.
Proof using Hauto Hrot Hd.
  intros E Hq Hp. destruct (shown_flat sh l E) as [_ El]. unfold pc_for in Hp.
  split; [|destruct Hd as (_ & Hps & _); rewrite Forall_forall in Hps; eapply Hps, nth_error_In, Hp].
  destruct (list_eq_dec Nat.eq_dec (nav_shape (d_pc d)) [1%nat]) as [Hn|Hn];
    pose proof (sets_of_directions d None _ p Hd ltac:(discriminate) Hp) as S; destruct (direction_cosines d None) as [dc|dcs] eqn:Ec.
  - cbn [for_pc] in S. injection S as ->. subst l.
    rewrite nth_error_map, Hq. cbn [option_map]. rewrite all_some_directions. reflexivity.
  - exfalso. unfold direction_cosines in Ec. rewrite Hn in Ec. destruct (pcs (d_pc d)); discriminate.
  - exfalso. unfold direction_cosines in Ec. destruct (nav_shape (d_pc d)) as [|[|[|n]] [|n' r]]; try discriminate. apply Hn. reflexivity.
  - cbn [for_pc] in S. subst l. rewrite (zip_opt_nth _ _ _ _ _ _ Hq S). rewrite all_some_directions. reflexivity.
Qed.

(** Every pattern with a PC is the one of C39, or loses all intensities: the latter exactly if the
    data type asked for is not the master pattern's and the detector sees no contrast. *)
Theorem C116_simulated_iff sh l i q p : patterns_shown auto mp rot_shape rotations d t chunk_shape = Some (sh, l) ->
  nth_error rotations i = Some q -> pc_for d i p ->
  length l = length rotations /\ exists pat I, nth_error l i = Some (Some pat) /\ length pat = (n_rows d * n_cols d)%nat /\ seen mp d q p I /\
    (t = mp_dtype mp \/ ~ FlatPatterns.flat I -> exists numbers, is_pattern_of mp t d q p numbers /\ pat = map Some numbers) /\
    (t <> mp_dtype mp /\ FlatPatterns.flat I -> FlatPatterns.lost pat).
Proof using Hauto Hrot Hd.
  intros E Hq Hp. destruct (shown_at sh l i q p E Hq Hp) as [Hl Hz]. split.
  { destruct (shown_flat sh l E) as [_ ->]. destruct (direction_cosines d None); [apply map_length|unfold zip_opt; now rewrite map_length, seq_length]. }
  set (vs := map (direction d p) (pixels d None)) in *.
  set (I := map (fun v => pixel_from_master_pattern (upper mp) (lower mp) (npx mp) (rotate_vector q v)) vs).
  exists (shown q vs), I. split; [exact Hl|].
  assert (V : Forall2 (points_at d p) (pixels d None) vs).
  { unfold vs. destruct Hd as (Hv & _). generalize (pixels d None) as l'. induction l' as [|x r IH]; cbn [map]; constructor; [now apply direction_points|exact IH]. }
  assert (N : I <> []).
  { intros C. apply (f_equal (@length R)) in C. unfold I, vs in C. rewrite !map_length, pixels_number in C. cbn in C.
    destruct Hd as ((A & B & _) & _). unfold n_rows, n_cols in C. nia. }
  split.
  { unfold shown, project_shown, rescaled. destruct (negb _); rewrite !map_length; unfold vs; rewrite map_length; apply pixels_number. }
  split; [exists vs; split; [exact V|reflexivity]|].
  assert (Sh : shown q vs = if dtype_eqb t (mp_dtype mp) then map Some (map (Intensity.cast t) I)
     else map (option_map (Intensity.cast t)) (rescaled (Pattern.vmin I) (Pattern.vmax I) (Intensity.dtype_min t) (Intensity.dtype_max t) I)).
  { unfold shown, project_shown. fold I. destruct (dtype_eqb t (mp_dtype mp)); cbn [negb]; [|reflexivity]. rewrite !map_map. reflexivity. }
  rewrite Sh. destruct (dtype_eqb t (mp_dtype mp)) eqn:T.
  - apply dtype_eqb_eq in T. split; [|tauto]. intros _. exists (map (Intensity.cast t) I). split; [|reflexivity].
    exists vs. split; [exact V|]. cbv zeta. rewrite (proj2 (dtype_eqb_eq t _) T). reflexivity.
  - assert (T' : t <> mp_dtype mp) by (intros C; apply dtype_eqb_eq in C; congruence). split.
    + intros [C|F]; [contradiction|].
      exists (map (Intensity.cast t) (Pattern.rescale_with_min_max (Pattern.vmin I) (Pattern.vmax I) (Intensity.dtype_min t) (Intensity.dtype_max t) I)).
      split; [exists vs; split; [exact V|]; cbv zeta; rewrite T; reflexivity|].
      apply FlatPatterns.rescaled_same. rewrite (FlatPatterns.flat_limits _ N). exact F.
    + intros [_ F]. apply FlatPatterns.rescaled_lost. now apply FlatPatterns.flat_limits.
Qed.

(** So with another data type no pattern has intensities on a detector of one pixel, the shape of a
    detector made without giving one. *)
Theorem C116_one_pixel_refuted sh l i q p : patterns_shown auto mp rot_shape rotations d t chunk_shape = Some (sh, l) ->
  nth_error rotations i = Some q -> pc_for d i p -> n_rows d = 1%nat -> n_cols d = 1%nat -> t <> mp_dtype mp ->
  nth_error l i = Some (Some [None]).
Proof using Hauto Hrot Hd.
  intros E Hq Hp R1 C1 T. destruct (C116_simulated_iff sh l i q p E Hq Hp) as (_ & pat & I & Hl & L & (vs & V & EI) & _ & H).
  rewrite Hl. do 2 f_equal. rewrite R1, C1 in L. cbn in L.
  assert (F : FlatPatterns.flat I).
  { assert (VL : length (pixels d None) = length vs) by (clear -V; induction V; cbn; congruence). rewrite pixels_number, R1, C1 in VL. destruct vs as [|v [|u vs]]; try discriminate VL. subst I.
    intros x y [<-|[]] [<-|[]]. reflexivity. }
  specialize (H (conj T F)). destruct pat as [|a [|b pat]]; try discriminate L. f_equal. apply H. now left.
Qed.

(** Nor do they with a master pattern of one intensity k everywhere, while with its own data type all
    pixels are k. *)
Theorem C116_uniform_master_refuted sh l i q p k : patterns_shown auto mp rot_shape rotations d t chunk_shape = Some (sh, l) ->
  nth_error rotations i = Some q -> pc_for d i p -> (forall r c, upper mp r c = k /\ lower mp r c = k) ->
  exists pat, nth_error l i = Some (Some pat) /\ length pat = (n_rows d * n_cols d)%nat /\
    (t <> mp_dtype mp -> FlatPatterns.lost pat) /\
    (t = mp_dtype mp -> forall x, In x pat -> x = Some (Intensity.cast t k)).
Proof using Hauto Hrot Hd.
  intros E Hq Hp K. destruct (C116_simulated_iff sh l i q p E Hq Hp) as (_ & pat & I & Hl & L & (vs & V & EI) & H1 & H2).
  assert (P : forall v, pixel_from_master_pattern (upper mp) (lower mp) (npx mp) v = k).
  { intros v. unfold pixel_from_master_pattern. destruct (Rle_dec 0 (vz v)); unfold interpolate.
    - rewrite !(fun r c => proj1 (K r c)). ring.
    - rewrite !(fun r c => proj2 (K r c)). ring. }
  exists pat. split; [exact Hl|]. split; [exact L|]. split.
  - intros T. apply H2. split; [exact T|]. subst I. intros x y Hx Hy. apply in_map_iff in Hx as (u & <- & _).
    apply in_map_iff in Hy as (v & <- & _). now rewrite !P.
  - intros T x Hx. destruct (H1 (or_introl T)) as (nums & (ws & _ & En) & ->). cbv zeta in En.
    rewrite (proj2 (dtype_eqb_eq t _) T) in En. subst nums. rewrite !map_map in Hx. apply in_map_iff in Hx as (u & <- & _). now rewrite P.
Qed.
End Shown.
Print Assumptions C116_simulated_iff.
Print Assumptions C116_one_pixel_refuted.
Print Assumptions C116_uniform_master_refuted.

(** ** Cases *)

(** Two rotations, a detector of 60 x 80 pixels with two PCs, and a master pattern that is one everywhere. *)
Definition uniform_master : master := Master (fun _ _ => 1) (fun _ _ => 1) 401 Intensity.Float32.
Example C116_case : exists sh l, patterns_shown (fun _ _ _ => 1%nat) uniform_master [2%nat] [Quat 1 0 0 0; Quat 0 1 0 0] example_detector Intensity.UInt8 None = Some (sh, l)
  /\ pc_for example_detector 0 (nth 0 (pcs (d_pc example_detector)) (PC 0 0 1)).
Proof. eexists _, _. split; [cbv -[project_shown direction_cosines concat map blocks all_some]; reflexivity|reflexivity]. Qed.
