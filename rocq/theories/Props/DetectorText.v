(** C16: detector text files. *)
From Coq Require Import Ascii String ZArith Arith Reals List Bool Lia Lra.
From Verif Require Import Model.Detector Model.DetectorText Proofs.DetectorProofs Proofs.DetectorTextProofs.
Import ListNotations.
Local Open Scope string_scope.
Local Open Scope list_scope.
Local Open Scope R_scope.

(** What is needed of Python's printing and reading of a floating point number: reading the printed text gives the number,
    and the text does not end in a space, d, e or g (it ends in a digit, or is inf or nan). *)
Definition prints (show : R -> string) (read_float : string -> option R) (x : R) : Prop :=
  read_float (show x) = Some x /\ exists a, last_char (show x) = Some a /\ ~ In a [" "; "d"; "e"; "g"]%char.
Definition printable (show : R -> string) (read_float : string -> option R) (d : detector) : Prop :=
  prints show read_float (d_px_size d) /\ prints show read_float (d_binning d) /\ prints show read_float (d_tilt d) /\
  prints show read_float (d_azimuthal d) /\ prints show read_float (d_twist d) /\ prints show read_float (d_sample_tilt d).
(** A projection center array as numpy makes it: as many projection centers as the navigation shape says, at least one. *)
Definition well_shaped (a : pcarray) : Prop :=
  nav_shape a <> [] /\ pcs a <> [] /\ fold_right Nat.mul 1%nat (nav_shape a) = List.length (pcs a).
(** Equal to within half a unit of the seventh decimal. *)
Definition within (p q : pc3) : Prop :=
  Rabs (pcx p - pcx q) <= 5 / 10 ^ 8 /\ Rabs (pcy p - pcy q) <= 5 / 10 ^ 8 /\ Rabs (pcz p - pcz q) <= 5 / 10 ^ 8.

Lemma prints_clean : forall show rf x, prints show rf x -> clean (show x).
Proof.
  intros show rf x (_ & a & L & N). exists a. split; [exact L|]. unfold in_deg.
  destruct (Ascii.eqb_spec a " ") as [->|]; [exfalso; apply N; cbn; auto|]. destruct (Ascii.eqb_spec a "d") as [->|]; [exfalso; apply N; cbn; auto|].
  destruct (Ascii.eqb_spec a "e") as [->|]; [exfalso; apply N; cbn; auto|]. destruct (Ascii.eqb_spec a "g") as [->|]; [exfalso; apply N; cbn; auto|]. reflexivity.
Qed.
Lemma read_header_app : forall l rows kw, (forall r, In r l -> is_comment r = true) -> (forall r, In r rows -> is_comment r = false) ->
  read_header kw (l ++ rows) = fold_left read_line l kw.
Proof.
  induction l as [|a l IH]; intros rows kw H1 H2; cbn [app fold_left].
  - destruct rows as [|r rows]; [reflexivity|]. cbn. now rewrite H2 by (left; reflexivity).
  - cbn [read_header]. rewrite H1 by (left; reflexivity). apply IH; [intros; apply H1; right; assumption|exact H2].
Qed.
Lemma filter_all : forall A (f : A -> bool) l, (forall x, In x l -> f x = true) -> filter f l = l.
Proof. induction l as [|x l IH]; intros H; [reflexivity|]. cbn. rewrite H by (left; reflexivity). f_equal. apply IH. intros; apply H; now right. Qed.
Lemma filter_none : forall A (f : A -> bool) l, (forall x, In x l -> f x = false) -> filter f l = [].
Proof. induction l as [|x l IH]; intros H; [reflexivity|]. cbn. rewrite H by (left; reflexivity). apply IH. intros; apply H; now right. Qed.
Lemma header_comment : forall show v t c d r, In r (header show v t c d) -> is_comment r = true.
Proof. intros show v t c d r H. unfold header in H. apply in_map_iff in H as (x & <- & _). reflexivity. Qed.
Lemma rows_read : forall l, all_some (map read_row (map pc_row l)) = Some (map round_pc l).
Proof. intros. rewrite map_map. rewrite (map_ext _ (fun p => Some (round_pc p))) by apply read_pc_row. rewrite <- (map_map round_pc Some). apply all_some_map. Qed.

(** What loading a saved file gives, exactly. *)
Lemma load_save : forall show rf version now conv d a, printable show rf d -> (0 <= d_ny d)%Z -> (0 <= d_nx d)%Z -> detector_pc_in conv d = Some a ->
  well_shaped a -> nav_shape a = nav_shape (d_pc d) ->
  exists lines, save show version now conv d = Some lines /\
  load rf lines = new_detector (d_ny d) (d_nx d) (d_px_size d) (d_binning d) (d_tilt d) (d_azimuthal d) (d_twist d) (d_sample_tilt d)
    (PCArray (nav_shape a) (map round_pc (pcs a))) conv.
Proof.
  intros show rf version now conv d a (P1 & P2 & P3 & P4 & P5 & P6) NY NX A (W1 & W2 & W3) N. unfold save. rewrite A. cbn [bind]. eexists. split; [reflexivity|].
  unfold load. rewrite filter_app, (filter_none _ _ (header _ _ _ _ _)) by (intros r H; now rewrite (header_comment _ _ _ _ _ _ H)).
  rewrite filter_all by (intros r H; apply in_map_iff in H as (p & <- & _); now rewrite row_not_comment). cbn [app].
  rewrite rows_read. cbn [bind]. rewrite read_header_app; [|apply header_comment|intros r H; apply in_map_iff in H as (p & <- & _); apply row_not_comment].
  set (kw := fold_left read_line _ _).
  assert (K1 : kw "shape" = Some (show_tuple [Z.to_nat (d_ny d); Z.to_nat (d_nx d)])) by reflexivity.
  assert (K2 : kw "px_size" = Some (show (d_px_size d))) by reflexivity.
  assert (K3 : kw "binning" = Some (show (d_binning d))) by reflexivity.
  assert (K4 : kw "tilt" = Some (show (d_tilt d) ++ " deg")%string) by reflexivity.
  assert (K5 : kw "azimuthal" = Some (show (d_azimuthal d) ++ " deg")%string) by reflexivity.
  assert (K6 : kw "twist" = Some (show (d_twist d) ++ " deg")%string) by reflexivity.
  assert (K7 : kw "sample_tilt" = Some (show (d_sample_tilt d) ++ " deg")%string) by reflexivity.
  assert (K8 : kw "convention" = Some conv) by reflexivity.
  assert (K9 : kw "navigation_shape" = Some (show_tuple (nav_shape (d_pc d)))) by reflexivity.
  clearbody kw. rewrite K1. cbn [bind]. rewrite read_show_tuple. cbn [bind]. rewrite K9. cbn [bind]. rewrite <- N.
  assert (NAV : (match read_tuple (show_tuple (nav_shape a)) with Some nav => nav | None => [List.length (map round_pc (pcs a))] end) = nav_shape a).
  { rewrite map_length, <- W3. destruct (nav_shape a) as [|n [|m l]]; [contradiction|rewrite read_show_tuple_1; cbn; now rewrite Nat.mul_1_r|now rewrite read_show_tuple]. }
  cbv zeta. rewrite NAV. unfold product. rewrite W3, map_length, Nat.eqb_refl.
  unfold number. rewrite K2, K3, K4, K5, K6, K7, K8. cbn [bind].
  rewrite !(rstrip_clean_nil (show _)) by (eapply prints_clean; eassumption). rewrite !rstrip_clean by (reflexivity || (eapply prints_clean; eassumption)).
  destruct P1 as [-> _], P2 as [-> _], P3 as [-> _], P4 as [-> _], P5 as [-> _], P6 as [-> _]. cbn [bind].
  now rewrite !Z2Nat.id by assumption.
Qed.

Lemma pc_in_shape : forall conv d a, detector_pc_in conv d = Some a -> nav_shape a = nav_shape (d_pc d) /\ List.length (pcs a) = List.length (pcs (d_pc d)).
Proof.
  intros conv d a H. unfold detector_pc_in in H. destruct (get_pc_convention conv); [|discriminate]. injection H as <-. unfold map_pc. cbn. now rewrite map_length.
Qed.
Lemma pc_in_known : forall conv d a, detector_pc_in conv d = Some a -> get_pc_convention conv <> None.
Proof. intros conv d a H. unfold detector_pc_in in H. destruct (get_pc_convention conv); [discriminate|discriminate]. Qed.
Lemma new_detector_fields : forall ny nx px b ti az tw st pc conv d, new_detector ny nx px b ti az tw st pc conv = Some d ->
  d_ny d = ny /\ d_nx d = nx /\ d_px_size d = px /\ d_binning d = b /\ d_tilt d = ti /\ d_azimuthal d = az /\ d_twist d = tw /\ d_sample_tilt d = st /\
  nav_shape (d_pc d) = nav_shape pc.
Proof. intros until d. unfold new_detector. destruct (get_pc_convention conv); [|discriminate]. intros H. injection H as <-. cbn. auto 10. Qed.
Lemma new_detector_known : forall ny nx px b ti az tw st pc conv, get_pc_convention conv <> None -> exists d, new_detector ny nx px b ti az tw st pc conv = Some d.
Proof. intros. unfold new_detector. destruct (get_pc_convention conv); [eexists; reflexivity|contradiction]. Qed.
Lemma round_within : forall p, within p (round_pc p).
Proof. intros p. repeat split; apply round7_error. Qed.
Lemma within_map : forall l, Forall2 within l (map round_pc l).
Proof. induction l as [|p l IH]; constructor; [apply round_within|exact IH]. Qed.

Theorem C16_save_then_load : forall show read_float version now conv d a,
  printable show read_float d -> valid d -> well_shaped (d_pc d) -> detector_pc_in conv d = Some a ->
  exists lines d' a', save show version now conv d = Some lines /\ load read_float lines = Some d' /\
    d_ny d' = d_ny d /\ d_nx d' = d_nx d /\ d_px_size d' = d_px_size d /\ d_binning d' = d_binning d /\ d_tilt d' = d_tilt d /\
    d_azimuthal d' = d_azimuthal d /\ d_twist d' = d_twist d /\ d_sample_tilt d' = d_sample_tilt d /\
    nav_shape (d_pc d') = nav_shape (d_pc d) /\
    detector_pc_in conv d' = Some a' /\ Forall2 within (pcs a) (pcs a').
Proof.
  intros show rf version now conv d a P V W A. destruct (pc_in_shape _ _ _ A) as [N L].
  assert (W' : well_shaped a).
  { destruct W as (W1 & W2 & W3). unfold well_shaped. rewrite N, L. repeat split; [exact W1| |exact W3]. intros E. rewrite E in L. destruct (pcs (d_pc d)); [contradiction|discriminate]. }
  destruct V as (V1 & V2 & V3 & V4).
  destruct (load_save show rf version now conv d a P ltac:(lia) ltac:(lia) A W' N) as (lines & S & LD).
  destruct (new_detector_known (d_ny d) (d_nx d) (d_px_size d) (d_binning d) (d_tilt d) (d_azimuthal d) (d_twist d) (d_sample_tilt d)
    (PCArray (nav_shape a) (map round_pc (pcs a))) conv (pc_in_known _ _ _ A)) as [d' D].
  exists lines, d', (PCArray (nav_shape a) (map round_pc (pcs a))). rewrite LD, S.
  pose proof (new_detector_fields _ _ _ _ _ _ _ _ _ _ _ D) as F. cbn in F. rewrite N in F. destruct F as (F1&F2&F3&F4&F5&F6&F7&F8&F9).
  split; [reflexivity|]. split; [exact D|]. do 9 (split; [assumption|]). split.
  - apply (new_detector_pc_in _ _ _ _ _ _ _ _ _ _ _ V1 V2 V3 V4 D).
  - apply within_map.
Qed.

(** In the default Bruker convention, which is how a detector holds its projection centers. *)
Theorem C16_save_then_load_bruker : forall show read_float version now d,
  printable show read_float d -> valid d -> well_shaped (d_pc d) ->
  exists lines d', save show version now "bruker" d = Some lines /\ load read_float lines = Some d' /\
    nav_shape (d_pc d') = nav_shape (d_pc d) /\ Forall2 within (pcs (d_pc d)) (pcs (d_pc d')).
Proof.
  intros show rf version now d P V W. assert (M : forall d, detector_pc_in "bruker" d = Some (d_pc d)).
  { intros [? ? ? ? ? ? ? ? [s l]]. unfold detector_pc_in. change (get_pc_convention "bruker") with (Some Bruker). unfold map_pc. cbn [d_pc nav_shape pcs]. now rewrite map_id. }
  destruct (C16_save_then_load show rf version now "bruker" d _ P V W (M d)) as (lines & d' & a' & S & L & _ & _ & _ & _ & _ & _ & _ & _ & N & A & F).
  exists lines, d'. rewrite M in A. injection A as <-. auto.
Qed.

(** Saving and loading once more in the same convention changes nothing. *)
Theorem C16_second_round_trip_is_exact : forall show read_float version now version' now' conv d a lines d',
  printable show read_float d -> valid d -> well_shaped (d_pc d) -> detector_pc_in conv d = Some a ->
  save show version now conv d = Some lines -> load read_float lines = Some d' ->
  exists lines', save show version' now' conv d' = Some lines' /\ load read_float lines' = Some d'.
Proof.
  intros show rf version now version' now' conv d a lines d' P V W A S L. destruct (pc_in_shape _ _ _ A) as [N LEN].
  assert (W' : well_shaped a).
  { destruct W as (W1 & W2 & W3). unfold well_shaped. rewrite N, LEN. repeat split; [exact W1| |exact W3]. intros E. rewrite E in LEN. destruct (pcs (d_pc d)); [contradiction|discriminate]. }
  destruct V as (V1 & V2 & V3 & V4).
  destruct (load_save show rf version now conv d a P ltac:(lia) ltac:(lia) A W' N) as (lines0 & S0 & LD). rewrite S in S0. injection S0 as <-.
  rewrite L in LD. symmetry in LD. pose proof (new_detector_fields _ _ _ _ _ _ _ _ _ _ _ LD) as F. cbn in F. destruct F as (F1&F2&F3&F4&F5&F6&F7&F8&F9).
  set (a' := PCArray (nav_shape a) (map round_pc (pcs a))) in *.
  pose proof (new_detector_pc_in _ _ _ _ _ _ _ _ _ _ _ V1 V2 V3 V4 LD) as A'.
  assert (P' : printable show rf d') by (destruct P as (?&?&?&?&?&?); unfold printable; rewrite F3, F4, F5, F6, F7, F8; tauto).
  assert (W'' : well_shaped a').
  { destruct W' as (W1 & W2 & W3). unfold a', well_shaped. cbn. rewrite map_length. repeat split; [exact W1| |exact W3]. intros E. apply map_eq_nil in E. contradiction. }
  destruct (load_save show rf version' now' conv d' a' P' ltac:(lia) ltac:(lia) A' W'' ltac:(rewrite F9; reflexivity)) as (lines' & S' & LD').
  exists lines'. split; [exact S'|]. rewrite LD', F1, F2, F3, F4, F5, F6, F7, F8, <- LD. f_equal. unfold a'. cbn. f_equal. rewrite map_map. apply map_ext. intros p.
  unfold round_pc. cbn. now rewrite !round7_again.
Qed.

(** A convention that is not one of the names raises and writes nothing. *)
Theorem C16_unknown_convention_writes_nothing : forall show version now conv d, get_pc_convention conv = None -> save show version now conv d = None.
Proof. intros. unfold save, detector_pc_in. now rewrite H. Qed.

(** A detector with a 2 x 1 map of projection centers, and printing with seven decimals as [show]. *)
Definition show7 (x : R) : string := fixed 7 (round_half_even (x * 10 ^ 7)).
Definition example_detector : detector :=
  Det 60 80 70 8 0 0 0 70 (PCArray [2; 1]%nat [PC (/ 2) (/ 3) (/ 4); PC (/ 5) (/ 6) (/ 7)]).
Lemma show7_prints : forall z, prints show7 read_decimal (IZR z).
Proof.
  intros z. unfold prints, show7. rewrite read_fixed. assert (E : round_half_even (IZR z * 10 ^ 7) = (z * 10 ^ 7)%Z).
  { rewrite <- (round_IZR (z * 10 ^ 7)). f_equal. rewrite mult_IZR. change (10 ^ 7)%Z with 10000000%Z. lra. }
  rewrite E. split.
  - f_equal. rewrite mult_IZR. replace (IZR (10 ^ 7)) with (10 ^ 7) by (change (10 ^ 7)%Z with 10000000%Z; lra). field.
  - exists (digit ((Z.abs (z * 10 ^ 7) mod 10 ^ Z.of_nat 7) mod 10)). unfold fixed.
    assert (LC : forall s a, last_char (s ++ String a "")%string = Some a).
    { induction s as [|x s IH]; intros a; [reflexivity|]. cbn. rewrite IH. now destruct s. }
    cbn [padded]. rewrite <- !append_assoc. split; [rewrite !append_assoc; rewrite <- !append_assoc; apply LC|].
    destruct (digit_value ((Z.abs (z * 10 ^ 7) mod 10 ^ Z.of_nat 7) mod 10)) as [D _]; [apply Z.mod_pos_bound; lia|].
    intros H. repeat (destruct H as [H|H]; [rewrite <- H in D; discriminate|]). exact H.
Qed.
Example C16_case : printable show7 read_decimal example_detector /\ valid example_detector /\ well_shaped (d_pc example_detector) /\
  (exists a, detector_pc_in "emsoft4" example_detector = Some a) /\ (exists a, detector_pc_in "Oxford" example_detector = Some a).
Proof.
  split; [unfold printable, example_detector; cbn; repeat split; apply show7_prints|].
  split; [unfold valid, example_detector; cbn; repeat split; try lia; lra|].
  split; [unfold well_shaped, example_detector; cbn; repeat split; discriminate|]. split; eexists; reflexivity.
Qed.
Print Assumptions C16_save_then_load.
