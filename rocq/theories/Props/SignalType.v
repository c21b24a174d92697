(** C88: the type of a signal, and what belongs to it, when it is loaded and converted. *)
From Coq Require Import String Ascii List Arith ZArith Reals Bool Lia Lra.
From Verif Require Import Model.Binary Model.Hdf5 Model.SignalType Spec.SignalConversions Proofs.SignalTypeProofs.
From Verif Require Model.Detector.
Import ListNotations.
Local Open Scope nat_scope.
Local Open Scope list_scope.
Local Open Scope string_scope.

(** A loaded signal has the class of the kind its type is a name of, lazy if asked for; other types, and other data than real
    numbers, are refused. *)
Lemma mem_spec : forall s l, mem s l = true <-> In s l.
Proof.
  intros s l. unfold mem. rewrite existsb_exists. split.
  - intros (x & I & E). apply String.eqb_eq in E. subst. exact I.
  - intros I. exists s. split; [exact I | apply String.eqb_refl].
Qed.
Theorem C88_class_of_loaded_signals : forall dtype type lazy c,
  assign_signal_subclass dtype type lazy = Some c <-> real_type dtype /\ exists k, called k type /\ c = class_of k lazy.
Proof.
  intros dtype type lazy c. unfold assign_signal_subclass. destruct (is_real dtype) eqn:R.
  - apply real_spec in R.
    assert (F : forall l, filter (fun c => (type =? c_type c)%string || mem type (c_aliases c)) (map (fun k => class_of k lazy) l)
                = map (fun k => class_of k lazy) (filter (fun k => (type =? name_of k)%string || mem type (other_names k)) l)).
    { induction l as [| k l IH]; [reflexivity |]. cbn [map filter]. rewrite IH.
      assert (Q : (type =? c_type (class_of k lazy))%string || mem type (c_aliases (class_of k lazy)) = (type =? name_of k)%string || mem type (other_names k))
        by (destruct k, lazy; reflexivity).
      rewrite Q. destruct ((type =? name_of k)%string || mem type (other_names k)); reflexivity. }
    set (ks := [Patterns; PatternSimulation; ChannelingSimulation; VirtualImages]) in *.
    assert (CL : filter (fun c => Bool.eqb (c_lazy c) lazy) classes = map (fun k => class_of k lazy) ks) by (destruct lazy; reflexivity).
    rewrite CL, F. clear F CL.
    assert (U : forall k, called k type -> filter (fun k => (type =? name_of k)%string || mem type (other_names k)) ks = [k]).
    { intros k H. unfold called in H. destruct k; cbn in H; decompose [or] H; subst; try contradiction; reflexivity. }
    split.
    + intros E. split; [exact R |].
      destruct (filter _ ks) as [| k [| ? ?]] eqn:X; try discriminate. cbn in E. injection E as <-.
      assert (I : In k (filter (fun k => (type =? name_of k)%string || mem type (other_names k)) ks)) by (rewrite X; left; reflexivity).
      apply filter_In in I. destruct I as [_ I]. apply orb_true_iff in I. exists k. split; [| reflexivity].
      destruct I as [I | I]; [left; apply String.eqb_eq, I | right; apply mem_spec, I].
    + intros (_ & k & C & ->). rewrite (U k C). reflexivity.
  - split; [discriminate |]. intros (H & _). apply real_spec in H. congruence.
Qed.

Section Signals.
Variable image : Type.
Variable astype : string -> string -> image -> image.

(** ** Loading *)

(** A reader that says data are not images is refused. *)
Theorem C88_only_images : forall w (d : signal_dict image) lazy r, d_record_by image d = Some r -> r <> "image" -> dict2signal image w d lazy = None.
Proof.
  intros w d lazy r E N. unfold dict2signal. rewrite E.
  destruct (String.eqb_spec r "image"); [contradiction | reflexivity].
Qed.

(** What a reader returns with patterns: the signal has it, and a detector of its shape if there is none. *)
Definition returned (d : signal_dict image) (name : string) (v : value image) : Prop :=
  given image (d_others image d) name = Some v.
Definition not_returned (d : signal_dict image) (name : string) : Prop := given image (d_others image d) name = None.

Theorem C88_loaded_patterns : forall w (d : signal_dict image) lazy type,
  d_type image d = Some type -> called Patterns type -> real_type (d_dtype image d) ->
  (d_record_by image d = None \/ d_record_by image d = Some "image") ->
  exists w' s, dict2signal image w d lazy = Some (w', s) /\ cls s = class_of Patterns lazy /\
    dtype s = d_dtype image d /\ data s = d_data image d /\
    (forall name v, In name ["detector"; "static_background"; "xmap"] -> returned d name v -> exists_in w (Some v) -> see w' s name = Some (seen w v)) /\
    (not_returned d "detector" -> exists det, see w' s "detector" = Some (Sees (ADetector det)) /\
       Detector.d_ny det = Z.of_nat (fst (d_shape image d)) /\ Detector.d_nx det = Z.of_nat (snd (d_shape image d)) /\
       Detector.d_px_size det = d_px image d /\ Detector.nav_shape (Detector.d_pc det) = [1]) /\
    (forall name, In name ["static_background"; "xmap"] -> not_returned d name -> see w' s name = Some SeesNone).
Proof.
  intros w d lazy type Ty C R RB.
  assert (A : assign_signal_subclass (d_dtype image d) type lazy = Some (class_of Patterns lazy)).
  { apply C88_class_of_loaded_signals. split; [exact R |]. exists Patterns. auto. }
  unfold dict2signal. rewrite Ty, A.
  assert (RB' : match d_record_by image d with Some r => if (r =? "image")%string then Some tt else None | None => Some tt end = Some tt)
    by (destruct RB as [-> | ->]; reflexivity).
  rewrite RB'. unfold bind.
  assert (I : is_ebsd (class_of Patterns lazy) = true) by (destruct lazy; reflexivity).
  unfold init. rewrite I. cbv beta zeta. unfold new. cbv beta iota zeta.
  do 2 eexists. split; [reflexivity |]. split; [reflexivity |]. split; [reflexivity |]. split; [reflexivity |].
  assert (X : forall v : value image, exists_in w (Some v) ->
     seen (World (S (next w)) (fun i => if (i =? next w)%nat then ADetector (default_detector (d_shape image d) (d_px image d)) else thing_at w i)) v = seen w v).
  { intros v V. destruct v; try reflexivity. cbn in V |- *. destruct (Nat.eqb_spec r (next w)); [lia | reflexivity]. }
  split; [| split].
  - intros name v IN RT V. unfold returned in RT. cbn in IN. destruct IN as [<- | [<- | [<- | []]]];
      unfold see; cbn -[given seen]; rewrite RT; cbn [or_none option_map]; rewrite (X v V); reflexivity.
  - intros NR. unfold not_returned in NR. unfold see. cbn -[given seen]. rewrite NR. eexists. split.
    + cbn [option_map seen]. cbn [thing_at]. rewrite Nat.eqb_refl. reflexivity.
    + repeat split.
  - intros name IN NR. unfold not_returned in NR. cbn in IN. destruct IN as [<- | [<- | []]];
      unfold see; cbn -[given seen]; rewrite NR; reflexivity.
Qed.

(** ** Patterns *)

Lemma pattern_triple : forall w (s : signal image), pattern_signal w s ->
  exists lazy v1 v2 v3, cls s = class_of Patterns lazy /\ triple image (class_of Patterns lazy) (names_of Patterns) s v1 v2 v3 /\
    valid image w v1 /\ valid image w v2 /\ valid image w v3.
Proof.
  intros w s [C N R [d D] M B [XD XM]].
  assert (exists lazy, cls s = class_of Patterns lazy) as [lazy CL] by (destruct C; eexists; eassumption).
  unfold see in *. destruct (attribute s "detector") as [v1 |] eqn:A1; [| discriminate].
  destruct (attribute s "xmap") as [v3 |] eqn:A3; [| contradiction].
  destruct (attribute s "static_background") as [v2 |] eqn:A2; [| destruct B as [B | (? & ? & B)]; discriminate].
  exists lazy, v1, v2, v3. split; [exact CL |]. split; [split; assumption |]. split; [exact XD |]. split; [| exact XM].
  destruct v2; cbn; auto. cbn in B. destruct B as [B | (? & ? & B)]; discriminate.
Qed.

Lemma see_triple : forall c n1 n2 n3 w (s : signal image) v1 v2 v3, triple image c (n1, n2, n3) s v1 v2 v3 ->
  see w s n1 = Some (seen w v1) /\ see w s n2 = Some (seen w v2) /\ see w s n3 = Some (seen w v3).
Proof. intros c n1 n2 n3 w s v1 v2 v3 [_ A1 A2 A3]. unfold see. cbn in A1, A2, A3. rewrite A1, A2, A3. auto. Qed.

(** Whatever conversions are made: the signal is one of patterns and lazy if last asked for, detector and crystal map are the same,
    and patterns and background are converted to the data types asked for. *)
Theorem C88_pattern_conversions : forall (h : list (conversion image)) w s w' s',
  pattern_signal w s -> Forall keeps_kind h -> run image astype h (w, s) = (w', s') ->
  pattern_signal w' s' /\
  cls s' = class_of Patterns (laziness_asked h (c_lazy (cls s))) /\
  dtype s' = last (types_asked h) (dtype s) /\
  data s' = map (fun p => snd (converted astype (types_asked h) (dtype s, p))) (data s) /\
  see w' s' "detector" = see w s "detector" /\
  see w' s' "xmap" = see w s "xmap" /\
  see w' s' "static_background" = option_map (converted_value astype (types_asked h)) (see w s "static_background").
Proof.
  intros h w s w' s' P H Run.
  destruct (pattern_triple w s P) as (lazy & v1 & v2 & v3 & C & T & V1 & V2 & V3).
  destruct P as [PC PN PR PD PM PB PX].
  destruct (history image astype h Patterns lazy w s v1 v2 v3 eq_refl H T PN PR V1 V2 V3)
    as (w1 & s1 & u1 & u2 & u3 & E & T' & N' & R' & (W1 & W2 & W3) & (S1 & S2 & S3) & Ty & D & Sh & Px).
  rewrite E in Run. injection Run as <- <-.
  assert (K : kind_asked h Patterns = Patterns).
  { clear - H. induction H as [| c h Hc Hh IH]; [reflexivity |]. destruct c; try contradiction; exact IH. }
  rewrite K in T', N'. cbn [names_of] in T, T'.
  destruct (see_triple _ _ _ _ w s v1 v2 v3 T) as (Q1 & Q2 & Q3).
  destruct (see_triple _ _ _ _ w1 s1 u1 u2 u3 T') as (Q1' & Q2' & Q3').
  assert (CL : cls s1 = class_of Patterns (laziness_asked h lazy)) by apply (t_cls _ _ _ _ _ _ _ T').
  assert (LZ : c_lazy (cls s) = lazy) by (rewrite C; destruct lazy; reflexivity).
  rewrite LZ. cbn [background_rule] in S2.
  assert (SB : see w1 s1 "static_background" = option_map (converted_value astype (types_asked h)) (see w s "static_background"))
    by (rewrite Q2', Q2, S2; reflexivity).
  assert (SD : see w1 s1 "detector" = see w s "detector") by congruence.
  assert (SM : see w1 s1 "xmap" = see w s "xmap") by congruence.
  split; [| auto 8].
  split.
  - destruct (laziness_asked h lazy); auto.
  - exact N'.
  - exact R'.
  - rewrite SD. exact PD.
  - rewrite SM. exact PM.
  - rewrite SB. destruct PB as [-> | (t & a & ->)]; [left; reflexivity | right; cbn].
    destruct (converted astype (types_asked h) (t, a)) as [t' a']. exists t', a'. reflexivity.
  - assert (AA := t_1 _ _ _ _ _ _ _ T'). assert (AB := t_3 _ _ _ _ _ _ _ T'). cbn in AA, AB. rewrite AA, AB. split; assumption.
Qed.

(** So a background of the type of the patterns can be removed after all conversions, and it is then the converted one ... *)
Theorem C88_background_stays_usable : forall (h : list (conversion image)) w s w' s' a,
  pattern_signal w s -> Forall keeps_kind h -> run image astype h (w, s) = (w', s') ->
  see w s "static_background" = Some (SeesArray (dtype s) a) ->
  background_to_remove image s' = Some (snd (converted astype (types_asked h) (dtype s, a))).
Proof.
  intros h w s w' s' a P H Run B.
  destruct (C88_pattern_conversions h w s w' s' P H Run) as (_ & _ & Ty & _ & _ & _ & SB).
  rewrite B in SB. cbn [option_map converted_value] in SB.
  assert (CT := converted_type image astype (types_asked h) (dtype s) a). rewrite <- Ty in CT.
  destruct (converted astype (types_asked h) (dtype s, a)) as [t' a']. cbn [fst] in CT. subst t'.
  unfold see in SB. unfold background_to_remove.
  destruct (attribute s' "static_background") as [[| | | |] |]; cbn in SB; try discriminate;
    injection SB as -> ->; rewrite String.eqb_refl; reflexivity.
Qed.

(** ... but not after an operation which gives the patterns another data type: rescale_intensity(dtype_out=...) *)
Theorem C88_background_after_rescaling_refuted : forall f t w s w' s' a,
  pattern_signal w s -> see w s "static_background" = Some (SeesArray (dtype s) a) ->
  number_type t -> t <> dtype s -> intensities image f t w s = Some (w', s') ->
  pattern_signal w' s' /\ dtype s' = t /\ see w' s' "static_background" = Some (SeesArray (dtype s) a) /\ background_to_remove image s' = None.
Proof.
  intros f t w s w' s' a P B Nt Ne E.
  destruct (pattern_triple w s P) as (lazy & v1 & v2 & v3 & C & T & V1 & V2 & V3).
  destruct (number_spec _ Nt) as [Rt _].
  destruct P as [PC PN PR PD PM PB PX].
  unfold intensities in E. rewrite (attributes_of image Patterns lazy s v1 v2 v3 eq_refl T) in E. unfold bind at 1 in E.
  assert (LZ : c_lazy (cls s) = lazy) by (rewrite C; destruct lazy; reflexivity). rewrite LZ in E.
  destruct (assign_of image Patterns lazy w (Signal (cls s) (metadata_type s) t (f (data s)) (shape s) (px s) (attribute s)) eq_refl Rt PN)
    as (w2 & s2 & A & X & C2 & N2 & R2 & D2 & Sh2 & P2).
  rewrite A in E. unfold bind in E. cbn [fst snd] in E.
  assert (T2 := set_three image Patterns lazy (fun v => v) s2 v1 v2 v3 eq_refl C2).
  set (s3 := set_custom_attributes _ _ _ _) in E, T2.
  assert (Z : w' = w2 /\ s' = s3) by (split; congruence). destruct Z as [-> ->].
  cbn [names_of] in T, T2.
  destruct (see_triple _ _ _ _ w s v1 v2 v3 T) as (Q1 & Q2 & Q3).
  destruct (see_triple _ _ _ _ w2 s3 v1 v2 v3 T2) as (Q1' & Q2' & Q3').
  rewrite (seen_extends image w w2 v1 X V1) in Q1'. rewrite (seen_extends image w w2 v2 X V2) in Q2'. rewrite (seen_extends image w w2 v3 X V3) in Q3'.
  assert (SD : see w2 s3 "detector" = see w s "detector") by congruence.
  assert (SM : see w2 s3 "xmap" = see w s "xmap") by congruence.
  assert (SB : see w2 s3 "static_background" = see w s "static_background") by congruence.
  assert (DT : dtype s3 = t) by exact R2.
  assert (MN : metadata_type s3 = name_of Patterns) by exact N2.
  clearbody s3.
  split; [| split; [exact DT | split; [congruence |]]].
  - split.
    + rewrite (t_cls _ _ _ _ _ _ _ T2). destruct lazy; auto.
    + exact MN.
    + rewrite DT. exact Nt.
    + rewrite SD. exact PD.
    + rewrite SM. exact PM.
    + rewrite SB. exact PB.
    + assert (AA := t_1 _ _ _ _ _ _ _ T2). assert (AB := t_3 _ _ _ _ _ _ _ T2). cbn in AA, AB. rewrite AA, AB.
      split; [exact (valid_extends image w w2 v1 X V1) | exact (valid_extends image w w2 v3 X V3)].
  - unfold background_to_remove. unfold see in SB, B. rewrite B in SB. rewrite DT.
    destruct (attribute s3 "static_background") as [[| | | |] |]; cbn in SB; try discriminate;
      injection SB as -> _; (destruct (String.eqb_spec (dtype s) t); [congruence | reflexivity]).
Qed.

(** The detector a signal of patterns gets if none is given: untilted, not binned, of the shape of the patterns, on a sample tilted
    70 degrees, with one PC in the middle. *)
Theorem C88_default_detector ny nx p : let d := default_detector (ny, nx) p in
  Detector.d_ny d = Z.of_nat ny /\ Detector.d_nx d = Z.of_nat nx /\ Detector.d_px_size d = p /\ Detector.d_binning d = 1%R /\
  (Detector.d_tilt d = 0 /\ Detector.d_azimuthal d = 0 /\ Detector.d_twist d = 0 /\ Detector.d_sample_tilt d = 70)%R /\
  Detector.nav_shape (Detector.d_pc d) = [1%nat] /\ forall c, In c (Detector.pcs (Detector.d_pc d)) <-> c = Detector.PC (1/2) (1/2) (1/2).
Proof.
  cbn. repeat split; intros; [destruct H as [<-|[]]|left; subst c]; f_equal; lra.
Qed.

(** Saying again that a signal has patterns: the class stays, and detector, crystal map and background are lost. *)
Theorem C88_setting_the_same_type_refuted : forall w s, pattern_signal w s ->
  exists w' s', set_signal_type image "EBSD" w s = Returns w' s' /\ pattern_signal w' s' /\ cls s' = cls s /\ data s' = data s /\
  see w' s' "detector" = Some (Sees (ADetector (default_detector (shape s) (px s)))) /\
  see w' s' "xmap" = Some SeesNone /\ see w' s' "static_background" = Some SeesNone.
Proof.
  intros w s P. destruct (pattern_triple w s P) as (lazy & v1 & v2 & v3 & C & T & _).
  destruct P as [PC PN PR PD PM PB PX]. destruct (number_spec _ PR) as [Rt _].
  unfold set_signal_type, assign_subclass. rewrite C.
  assert (LZ : c_lazy (class_of Patterns lazy) = lazy) by (destruct lazy; reflexivity). rewrite LZ.
  cbn [metadata_type set_type dtype]. rewrite (subclass_of Patterns _ lazy Rt : hyperspy_subclass (dtype s) "EBSD" lazy = _). unfold bind.
  exists (snd (new w (ADetector (default_detector (shape s) (px s))))).
  destruct lazy; cbn -[see new default_detector]; rewrite ?C; cbn -[see new default_detector];
    (eexists; split; [reflexivity |]; split;
     [split; cbn -[see new default_detector]; unfold see; cbn -[default_detector]; rewrite ?Nat.eqb_refl;
        [auto | reflexivity | exact PR | eexists; reflexivity | left; reflexivity | left; reflexivity | split; [lia | exact I]]
     | split; [reflexivity | split; [reflexivity |]]; unfold see; cbn -[default_detector]; rewrite ?Nat.eqb_refl; auto]).
Qed.

(** Another name of the same type makes a lazy signal one of HyperSpy's, without detector, crystal map and background. *)
Theorem C88_other_name_of_lazy_signal_refuted : forall w s name, pattern_signal w s -> cls s = class_of Patterns true ->
  In name (other_names Patterns) ->
  exists w' s', set_signal_type image name w s = Returns w' s' /\ c_name (cls s') = "LazySignal2D" /\
  forall a, In a ["detector"; "xmap"; "static_background"] -> see w' s' a = None.
Proof.
  intros w s name P C [<- | []].
  destruct P as [PC PN PR PD PM PB PX]. destruct (number_spec _ PR) as [Rt _].
  unfold set_signal_type, assign_subclass. rewrite C. cbn [metadata_type set_type dtype].
  unfold hyperspy_subclass. rewrite Rt. cbn -[see]. rewrite ?C. cbn -[see].
  do 2 eexists. split; [reflexivity |]. split; [reflexivity |].
  intros a IN. cbn in IN. destruct IN as [<- | [<- | [<- | []]]]; unfold see; reflexivity.
Qed.

(** Complex numbers are for HyperSpy's signals: nothing of a signal of patterns is left. *)
Theorem C88_complex_numbers : forall w s t, pattern_signal w s -> part_of "complex" t -> ~ real_type t ->
  exists w' s', change_dtype image astype t w s = Some (w', s') /\
    c_name (cls s') = (if c_lazy (cls s) then "LazyComplexSignal2D" else "ComplexSignal2D") /\
    data s' = map (astype (dtype s) t) (data s) /\ forall a, In a ["detector"; "xmap"; "static_background"] -> see w' s' a = None.
Proof.
  intros w s t P Ct NR. destruct (pattern_triple w s P) as (lazy & v1 & v2 & v3 & C & T & _).
  destruct P as [PC PN PR PD PM PB PX]. destruct (number_spec _ PR) as [Rt Cs].
  assert (RF : is_real t = false) by (destruct (is_real t) eqn:E; [apply real_spec in E; contradiction | reflexivity]).
  assert (CT : is_complex t = true) by (apply contains_part, Ct).
  unfold change_dtype. rewrite Cs. cbn [andb].
  rewrite (attributes_of image Patterns lazy s v1 v2 v3 eq_refl T). unfold bind at 1. unfold assign_subclass.
  cbn [metadata_type dtype]. unfold hyperspy_subclass. rewrite RF, CT. rewrite C.
  destruct lazy; cbn -[see]; rewrite ?C; cbn -[see];
    (do 2 eexists; split; [reflexivity |]; split; [reflexivity |]; split; [reflexivity |];
     intros a IN; cbn in IN; destruct IN as [<- | [<- | [<- | []]]]; unfold see; reflexivity).
Qed.

(** ** Copies *)

(** A deep copy is not changed with the signal, nor the signal with its copy, when what is in a detector or map is changed. *)
Theorem C88_deep_copies_are_separate : forall w s w' s', pattern_signal w s -> deepcopy image w s = Some (w', s') ->
  forall name, In name ["detector"; "xmap"; "static_background"] ->
  see w' s' name = see w s name /\
  (forall other r t, In other ["detector"; "xmap"; "static_background"] -> attribute s' other = Some (Object r) -> see (change_thing w' r t) s name = see w s name) /\
  (forall other r t, In other ["detector"; "xmap"; "static_background"] -> attribute s other = Some (Object r) -> see (change_thing w' r t) s' name = see w s name).
Proof.
  intros w s w' s' P E. destruct (pattern_triple w s P) as (lazy & v1 & v2 & v3 & C & T & V1 & V2 & V3).
  destruct P as [PC PN PR PD PM PB PX]. destruct (number_spec _ PR) as [Rt _].
  destruct (deepcopy_one image Patterns lazy w s v1 v2 v3 eq_refl T PN V1 V2 V3)
    as (w1 & s1 & u1 & u2 & u3 & E1 & X & T' & _ & (S1 & S2 & S3) & (U1 & U2 & U3) & New).
  rewrite E in E1. injection E1 as <- <-.
  cbn [names_of] in T, T'. destruct T as [_ A1 A2 A3], T' as [_ B1 B2 B3]. cbn in A1, A2, A3, B1, B2, B3.
  assert (CH : forall r t (v : value image), (forall q, v = Object q -> q <> r) -> seen (change_thing w' r t) v = seen w' v).
  { intros r t v Q. destruct v as [| | | | q]; try reflexivity. cbn. destruct (Nat.eqb_spec q r); [exfalso; eapply Q; [reflexivity | assumption] | reflexivity]. }
  assert (SN : forall o r, In o ["detector"; "xmap"; "static_background"] -> attribute s' o = Some (Object r) -> next w <= r).
  { intros o r IN AO. apply New. cbn in IN. destruct IN as [<- | [<- | [<- | []]]];
      [rewrite B1 in AO | rewrite B3 in AO | rewrite B2 in AO]; injection AO as ->; cbn; auto. }
  assert (SO : forall o r, In o ["detector"; "xmap"; "static_background"] -> attribute s o = Some (Object r) -> r < next w).
  { intros o r IN AO. cbn in IN. destruct IN as [<- | [<- | [<- | []]]];
      [rewrite A1 in AO | rewrite A3 in AO | rewrite A2 in AO]; injection AO as ->; assumption. }
  intros name IN.
  assert (HN : exists v u, attribute s name = Some v /\ attribute s' name = Some u /\ seen w' u = seen w v /\ valid image w v /\
             (forall q, u = Object q -> (next w <= q)%nat)).
  { cbn in IN. destruct IN as [<- | [<- | [<- | []]]].
    - exists v1, u1. repeat split; auto. intros q ->. apply New. cbn; auto.
    - exists v3, u3. repeat split; auto. intros q ->. apply New. cbn; auto.
    - exists v2, u2. repeat split; auto. intros q ->. apply New. cbn; auto. }
  destruct HN as (v & u & AV & AU & SU & VV & NU). unfold see. rewrite AV, AU. cbn [option_map].
  split; [rewrite SU; reflexivity |]. split.
  - intros o r t IO AO. rewrite CH; [rewrite (seen_extends image w w' v X VV); reflexivity |].
    intros q ->. specialize (SN o r IO AO). cbn in VV. lia.
  - intros o r t IO AO. rewrite CH; [rewrite SU; reflexivity |].
    intros q ->. specialize (NU q eq_refl). specialize (SO o r IO AO). lia.
Qed.

(** The lazy copy of as_lazy() has the same detector: changing it changes the detector of the signal. *)
Theorem C88_lazy_copy_is_separate_refuted : forall w s w' s', pattern_signal w s -> as_lazy image w s = Some (w', s') ->
  exists r, attribute s' "detector" = Some (Object r) /\
  forall d, see (change_thing w' r (ADetector d)) s "detector" = Some (Sees (ADetector d)).
Proof.
  intros w s w' s' P E. destruct (pattern_triple w s P) as (lazy & v1 & v2 & v3 & C & T & V1 & V2 & V3).
  destruct P as [PC PN PR PD PM PB PX]. destruct (number_spec _ PR) as [Rt _].
  destruct (as_lazy_one image Patterns lazy w s v1 v2 v3 eq_refl T PN Rt V1 V2 V3) as (w1 & s1 & E1 & X & T' & _).
  rewrite E in E1. injection E1 as <- <-.
  cbn [names_of] in T, T'. destruct T as [_ A1 A2 A3], T' as [_ B1 B2 B3]. cbn in A1, A2, A3, B1, B2, B3.
  destruct PD as [d D]. unfold see in D. rewrite A1 in D. cbn in D. destruct v1 as [| | | | r]; try discriminate.
  exists r. split; [exact B1 |]. intros d'. unfold see. rewrite A1. cbn. rewrite Nat.eqb_refl. reflexivity.
Qed.

(** ** Simulated patterns *)
Theorem C88_simulation_conversions : forall (h : list (conversion image)) k w s w' s',
  simulation_signal k w s -> Forall keeps_simulation h -> run image astype h (w, s) = (w', s') ->
  simulation_signal (kind_asked h k) w' s' /\
  cls s' = class_of (kind_asked h k) (laziness_asked h (c_lazy (cls s))) /\
  dtype s' = last (types_asked h) (dtype s) /\
  data s' = map (fun p => snd (converted astype (types_asked h) (dtype s, p))) (data s) /\
  forall name, In name ["hemisphere"; "phase"; "projection"] -> see w' s' name = see w s name.
Proof.
  intros h k w s w' s' P H Run. destruct P as [PK PC PN PR PP PH PJ PX].
  assert (exists lazy, cls s = class_of k lazy) as [lazy CL] by (destruct PC; eexists; eassumption).
  assert (K3 : three k = true) by (destruct PK as [-> | ->]; reflexivity).
  assert (NM : names_of k = ("hemisphere", "phase", "projection")) by (destruct PK as [-> | ->]; reflexivity).
  assert (exists v1 v2 v3, triple image (class_of k lazy) (names_of k) s v1 v2 v3 /\ valid image w v1 /\ valid image w v2 /\ valid image w v3)
    as (v1 & v2 & v3 & T & V1 & V2 & V3).
  { rewrite NM. unfold see in *. destruct (attribute s "phase") as [v2 |] eqn:A2; [| contradiction].
    destruct (attribute s "hemisphere") as [v1 |] eqn:A1; [| destruct PH as [B | (? & B)]; discriminate].
    destruct (attribute s "projection") as [v3 |] eqn:A3; [| destruct PJ as [B | (? & B)]; discriminate].
    exists v1, v2, v3. split; [split; assumption |]. split; [| split; [exact PX |]].
    - destruct v1; cbn; auto. destruct PH as [B | (? & B)]; discriminate.
    - destruct v3; cbn; auto. destruct PJ as [B | (? & B)]; discriminate. }
  assert (HF : Forall (fine image k) h) by (destruct PK as [-> | ->]; exact H).
  destruct (history image astype h k lazy w s v1 v2 v3 K3 HF T PN PR V1 V2 V3)
    as (w1 & s1 & u1 & u2 & u3 & E & T' & N' & R' & (W1 & W2 & W3) & (S1 & S2 & S3) & Ty & D & Sh & Px).
  rewrite E in Run. injection Run as <- <-.
  assert (KA : kind_asked h k = PatternSimulation \/ kind_asked h k = ChannelingSimulation).
  { clear - PK. revert k PK. induction h as [| c h IH]; intros k PK; [exact PK |].
    change (kind_asked (c :: h) k) with (kind_asked h (kind_asked [c] k)). apply IH.
    destruct c; try exact PK. cbn. destruct (_ =? _)%string; auto. }
  assert (NM' : names_of (kind_asked h k) = ("hemisphere", "phase", "projection")) by (destruct KA as [-> | ->]; reflexivity).
  rewrite NM in T. rewrite NM' in T'.
  destruct (see_triple _ _ _ _ w s v1 v2 v3 T) as (Q1 & Q2 & Q3).
  destruct (see_triple _ _ _ _ w1 s1 u1 u2 u3 T') as (Q1' & Q2' & Q3').
  assert (S2' : seen w1 u2 = seen w v2) by (rewrite S2; destruct PK as [-> | ->]; reflexivity).
  assert (LZ : c_lazy (cls s) = lazy) by (rewrite CL; destruct PK as [-> | ->]; destruct lazy; reflexivity). rewrite LZ.
  assert (SEE : forall name, In name ["hemisphere"; "phase"; "projection"] -> see w1 s1 name = see w s name).
  { intros name IN. cbn in IN. destruct IN as [<- | [<- | [<- | []]]]; congruence. }
  split; [| split; [apply (t_cls _ _ _ _ _ _ _ T') | auto]].
  split.
  - exact KA.
  - rewrite (t_cls _ _ _ _ _ _ _ T'). destruct (laziness_asked h lazy); auto.
  - exact N'.
  - exact R'.
  - rewrite (SEE "phase") by (cbn; auto). exact PP.
  - rewrite (SEE "hemisphere") by (cbn; auto). exact PH.
  - rewrite (SEE "projection") by (cbn; auto). exact PJ.
  - assert (AA := t_2 _ _ _ _ _ _ _ T'). cbn in AA. rewrite AA. exact W2.
Qed.

(** A name with "master" in it which is not one of a type, as another spelling: an exception, and the signal has lost its type,
    phase, hemisphere and projection. *)
Theorem C88_unknown_simulation_type_refuted : forall k w s t, simulation_signal k w s ->
  part_of "master" (Detector.lower t) -> (forall k', ~ called k' t) ->
  exists w' s', set_signal_type image t w s = Raises w' s' /\ c_name (cls s') = (if c_lazy (cls s) then "LazySignal2D" else "Signal2D") /\
  forall a, In a ["hemisphere"; "phase"; "projection"] -> see w' s' a = None.
Proof.
  intros k w s t P Mt NK. destruct P as [PK PC PN PR PP PH PJ PX].
  assert (exists lazy, cls s = class_of k lazy) as [lazy CL] by (destruct PC; eexists; eassumption).
  destruct (number_spec _ PR) as [Rt _].
  apply contains_part in Mt. unfold set_signal_type. rewrite Mt.
  assert (G : exists l, get_custom_attributes image s = Some l).
  { unfold get_custom_attributes. rewrite CL. unfold see in *.
    destruct (attribute s "phase") as [v2 |] eqn:A2; [| contradiction].
    destruct (attribute s "hemisphere") as [v1 |] eqn:A1; [| destruct PH as [B | (? & B)]; discriminate].
    destruct (attribute s "projection") as [v3 |] eqn:A3; [| destruct PJ as [B | (? & B)]; discriminate].
    destruct PK as [-> | ->]; destruct lazy; cbn; rewrite A1, A2, A3; cbn; eexists; reflexivity. }
  destruct G as [l ->].
  assert (SC : hyperspy_subclass (dtype s) t lazy = Some (generic false lazy)).
  { unfold hyperspy_subclass. rewrite Rt.
    assert (Q : forall k', (t =? name_of k')%string = false /\ mem t (other_names k') = false).
    { intros k'. split.
      - destruct (String.eqb_spec t (name_of k')) as [E |]; [exfalso; apply (NK k'); left; exact E | reflexivity].
      - destruct (mem t (other_names k')) eqn:E; [| reflexivity]. exfalso. apply (NK k'). right. apply mem_spec, E. }
    assert (F : filter (fun c => (t =? c_type c)%string || mem t (c_registered c)) (filter (fun c => Bool.eqb (c_lazy c) lazy) classes) = []).
    { pose proof (Q Patterns) as [Q1 Q1']. pose proof (Q PatternSimulation) as [Q2 Q2']. pose proof (Q ChannelingSimulation) as [Q3 Q3']. pose proof (Q VirtualImages) as [Q4 Q4'].
      cbn [name_of other_names] in *.
      destruct lazy; cbn [classes filter c_lazy Bool.eqb EBSD LazyEBSD EBSDMasterPattern LazyEBSDMasterPattern ECPMasterPattern LazyECPMasterPattern VirtualBSEImage LazyVirtualBSEImage c_type c_registered];
        rewrite ?Q1, ?Q1', ?Q2, ?Q2', ?Q3, ?Q3', ?Q4, ?Q4'; reflexivity. }
    rewrite F. reflexivity. }
  unfold assign_subclass. cbn [metadata_type set_type dtype]. rewrite CL.
  assert (LZ : c_lazy (class_of k lazy) = lazy) by (destruct PK as [-> | ->]; destruct lazy; reflexivity). rewrite LZ, SC.
  destruct PK as [-> | ->]; destruct lazy; cbn -[see]; rewrite ?CL; cbn -[see];
    (do 2 eexists; split; [reflexivity |]; split; [reflexivity |];
     intros a IN; cbn in IN; destruct IN as [<- | [<- | [<- | []]]]; unfold see; reflexivity).
Qed.

(** A simulation said to be one of measured patterns, or of virtual images, has nothing of a simulation left; patterns get a detector of
    their shape. *)
Theorem C88_simulation_made_other : forall k k' w s name, simulation_signal k w s -> k' = Patterns \/ k' = VirtualImages ->
  name = name_of k' \/ c_lazy (cls s) = false /\ called k' name ->
  exists w' s', set_signal_type image name w s = Returns w' s' /\ cls s' = class_of k' (c_lazy (cls s)) /\ metadata_type s' = name_of k' /\
  data s' = data s /\ dtype s' = dtype s /\
  (forall a, In a ["hemisphere"; "phase"; "projection"] -> see w' s' a = None) /\
  (k' = Patterns -> see w' s' "detector" = Some (Sees (ADetector (default_detector (shape s) (px s)))) /\
     see w' s' "xmap" = Some SeesNone /\ see w' s' "static_background" = Some SeesNone).
Proof.
  intros k k' w s name P K' NM. destruct P as [PK PC PN PR PP PH PJ PX].
  assert (exists lazy, cls s = class_of k lazy) as [lazy CL] by (destruct PC; eexists; eassumption).
  destruct (number_spec _ PR) as [Rt _].
  assert (LZ : c_lazy (cls s) = lazy) by (rewrite CL; destruct PK as [-> | ->]; destruct lazy; reflexivity). rewrite LZ in *.
  unfold set_signal_type. rewrite CL.
  assert (M : is_master (class_of k lazy) = true) by (destruct PK as [-> | ->]; destruct lazy; reflexivity). rewrite M.
  assert (X : contains "master" (Detector.lower name) = false /\ hyperspy_subclass (dtype s) name lazy = Some (class_of k' lazy)).
  { unfold hyperspy_subclass. rewrite Rt. destruct K' as [-> | ->]; destruct NM as [-> | [-> [-> | [<- | []]]]]; try destruct lazy; split; reflexivity. }
  destruct X as [X SC]. rewrite X. unfold assign_subclass. cbn [metadata_type set_type dtype].
  rewrite <- CL, LZ, SC. unfold bind.
  destruct PK as [-> | ->]; destruct K' as [-> | ->]; destruct lazy; cbn -[see default_detector]; rewrite ?CL; cbn -[see default_detector];
    (do 2 eexists; split; [reflexivity |]; split; [reflexivity |]; split; [reflexivity |]; split; [reflexivity |]; split; [reflexivity |]; split;
     [intros a IN; cbn in IN; destruct IN as [<- | [<- | [<- | []]]]; unfold see; reflexivity
     | intros E; try discriminate E; unfold see; cbn -[default_detector]; rewrite ?Nat.eqb_refl; auto]).
Qed.

(** Whichever name of a kind is used for a signal in memory, the name kept is the first one. *)
Theorem C88_one_name_kept : forall k k' w s name, cls s = class_of k false -> real_type (dtype s) -> called k' name ->
  (forall a, In a (c_custom (cls s)) -> attribute s a <> None) ->
  exists w' s', set_signal_type image name w s = Returns w' s' /\ cls s' = class_of k' false /\ metadata_type s' = name_of k' /\ data s' = data s.
Proof.
  intros k k' w s name CL Rt C A. apply real_spec in Rt.
  assert (SC : hyperspy_subclass (dtype s) name false = Some (class_of k' false)).
  { unfold hyperspy_subclass. rewrite Rt. unfold called in C. destruct k'; cbn in C; decompose [or] C; subst; try contradiction; reflexivity. }
  assert (G : exists l, get_custom_attributes image s = Some l).
  { unfold get_custom_attributes. induction (c_custom (cls s)) as [| a l IH]; [eexists; reflexivity |]. cbn [get_attributes].
    destruct (attribute s a) as [v |] eqn:E; [| exfalso; apply (A a); [left; reflexivity | exact E]].
    destruct IH as [l' ->]; [intros b Hb; apply A; right; exact Hb |]. eexists. reflexivity. }
  destruct G as [l G]. unfold set_signal_type, assign_subclass. cbn [metadata_type set_type dtype]. rewrite G, CL.
  assert (LZ : c_lazy (class_of k false) = false) by (destruct k; reflexivity). rewrite LZ, SC. unfold bind.
  destruct k, k'; cbn -[set_custom_attributes]; rewrite ?CL; cbn -[set_custom_attributes];
    try (do 2 eexists; split; [reflexivity |]; repeat split; reflexivity);
    (destruct (contains "master" (Detector.lower name)); do 2 eexists; (split; [reflexivity |]); repeat split; reflexivity).
Qed.

End Signals.

(** ** Examples *)
Definition example_world : world :=
  World 3 (fun i => match i with
                    | 0 => ADetector (Detector.Det 60 60 50 2 5 0 0 70 (Detector.PCArray [1] [Detector.PC 0.4 0.6 0.5]))
                    | 1 => ACrystalMap 7 | _ => APhase "ni" end).
Definition example_dict : signal_dict Z :=
  SignalDict [100%Z; 200%Z] "uint8" (60, 60) 1 (Some "EBSD") (Some "image")
    [("detector", Object 0); ("static_background", Numpy "uint8" 50%Z); ("xmap", Object 1)].
Definition example_astype (a b : string) (x : Z) : Z := if (b =? "uint8")%string then (x mod 256)%Z else x.
Definition example_signal : signal Z :=
  Signal EBSD "EBSD" "uint8" [100%Z; 200%Z] (60, 60) 1
    (fun n => if (n =? "detector")%string then Some (Object 0) else if (n =? "xmap")%string then Some (Object 1)
              else if (n =? "static_background")%string then Some (Numpy "uint8" 50%Z) else None).
Definition example_master : signal Z :=
  Signal EBSDMasterPattern "EBSDMasterPattern" "uint8" [100%Z] (60, 60) 1
    (fun n => if (n =? "hemisphere")%string then Some (Text "upper") else if (n =? "phase")%string then Some (Object 2)
              else if (n =? "projection")%string then Some (Text "lambert") else None).
Lemma example_uint8 : number_type "uint8".
Proof. split; [apply real_spec; reflexivity |]. intros H. apply contains_part in H. discriminate. Qed.
Lemma example_float32 : number_type "float32".
Proof. split; [apply real_spec; reflexivity |]. intros H. apply contains_part in H. discriminate. Qed.
Example C88_loaded_patterns_example :
  called Patterns "EBSD" /\ real_type "uint8" /\ returned Z example_dict "detector" (Object 0) /\ exists_in (image := Z) example_world (Some (Object 0)) /\
  option_map (fun p => c_name (cls (snd p))) (dict2signal Z example_world example_dict true) = Some "LazyEBSD".
Proof.
  split; [left; reflexivity |]. split; [apply real_spec; reflexivity |]. split; [reflexivity |]. split; [cbn; lia |].
  vm_compute. reflexivity.
Qed.
Example C88_pattern_conversions_example :
  pattern_signal example_world example_signal /\
  Forall (keeps_kind (image := Z)) [ChangeType "float32"; AsLazy; DeepCopy; ChangeType "uint8"; Compute] /\
  let ws := run Z example_astype [ChangeType "float32"; AsLazy; DeepCopy; ChangeType "uint8"; Compute] (example_world, example_signal) in
  cls (snd ws) = EBSD /\ see (fst ws) (snd ws) "static_background" = Some (SeesArray "uint8" 50%Z).
Proof.
  split; [| split].
  - split; [left; reflexivity | reflexivity | exact example_uint8 | eexists; reflexivity | right; eexists; reflexivity
           | right; do 2 eexists; reflexivity | split; cbn; lia].
  - repeat constructor; apply example_uint8 || apply example_float32.
  - vm_compute. split; reflexivity.
Qed.
Example C88_background_after_rescaling_refuted_example :
  number_type "float32" /\ "float32" <> dtype example_signal /\ see example_world example_signal "static_background" = Some (SeesArray "uint8" 50%Z) /\
  option_map (fun p => dtype (snd p)) (intensities Z (fun l => l) "float32" example_world example_signal) = Some "float32".
Proof. split; [apply example_float32 |]. split; [discriminate |]. split; [reflexivity |]. vm_compute. reflexivity. Qed.
Example C88_complex_numbers_example : part_of "complex" "complex64" /\ ~ real_type "complex64".
Proof. split; [apply contains_part; reflexivity |]. intros H. apply real_spec in H. discriminate. Qed.
Example C88_simulation_conversions_example :
  simulation_signal PatternSimulation example_world example_master /\
  Forall (keeps_simulation (image := Z)) [SetType "ECPMasterPattern"; AsLazy; ChangeType "float32"] /\
  let ws := run Z example_astype [SetType "ECPMasterPattern"; AsLazy; ChangeType "float32"] (example_world, example_master) in
  c_name (cls (snd ws)) = "LazyECPMasterPattern" /\ see (fst ws) (snd ws) "phase" = Some (Sees (APhase "ni")).
Proof.
  split; [| split].
  - split; [left; reflexivity | left; reflexivity | reflexivity | exact example_uint8 | eexists; reflexivity
           | right; eexists; reflexivity | right; eexists; reflexivity | cbn; lia].
  - constructor; [right; reflexivity | repeat constructor; apply example_float32].
  - vm_compute. split; reflexivity.
Qed.
Example C88_one_name_kept_example :
  match set_signal_type Z "electron_backscatter_diffraction" example_world example_signal with
  | Returns w s => metadata_type s = "EBSD" /\ cls s = EBSD | Raises _ _ => False end
  /\ match set_signal_type Z "EBSD" example_world example_master with
     | Returns w s => cls s = EBSD /\ see w s "phase" = None | Raises _ _ => False end.
Proof. vm_compute. repeat split. Qed.
Example C88_unknown_simulation_type_refuted_example : part_of "master" (Detector.lower "EBSD master pattern") /\ (forall k, ~ called k "EBSD master pattern").
Proof.
  split; [apply contains_part; reflexivity |]. intros k [H | H]; destruct k; cbn in H; try discriminate; decompose [or] H; try discriminate; contradiction.
Qed.

Print Assumptions C88_class_of_loaded_signals.
Print Assumptions C88_pattern_conversions.
Print Assumptions C88_simulation_conversions.
