(** Proofs about Model/SignalType.v. *)
From Coq Require Import String Ascii List Arith ZArith Reals Bool Lia.
From Verif Require Import Model.Binary Model.Hdf5 Model.SignalType Spec.SignalConversions.
From Verif Require Model.Detector.
Import ListNotations.
Local Open Scope nat_scope.
Local Open Scope list_scope.
Local Open Scope string_scope.

(** ** Names of data types *)
Lemma prefix_part : forall s t, prefix s t = true <-> exists b, t = s ++ b.
Proof.
  induction s as [| c s IH]; intros t.
  - destruct t; split; intros; try reflexivity; eexists; reflexivity.
  - destruct t as [| c' t]; cbn [prefix].
    + split; [discriminate | intros [b E]; discriminate].
    + destruct (ascii_dec c c') as [-> | N].
      * rewrite IH. split; intros [b E]; exists b; [rewrite E; reflexivity | injection E as E; exact E].
      * split; [discriminate | intros [b E]; injection E as E _; congruence].
Qed.

Lemma contains_part : forall s t, contains s t = true <-> part_of s t.
Proof.
  intros s t. revert s. induction t as [| c t IH]; intros s; cbn [contains].
  - rewrite orb_true_iff, prefix_part. split.
    + intros [[b E] | E]; [exists "", b; exact E | discriminate].
    + intros (a & b & E). left. exists b. destruct a; [exact E | discriminate].
  - rewrite orb_true_iff, prefix_part, IH. split.
    + intros [[b E] | (a & b & E)]; [exists "", b; exact E | exists (String c a), b; rewrite E; reflexivity].
    + intros (a & b & E). destruct a as [| c' a]; [left; exists b; exact E |].
      right. injection E as _ E. exists a, b. exact E.
Qed.

Lemma real_spec : forall t, is_real t = true <-> real_type t.
Proof.
  intros t. unfold is_real, real_type. rewrite !orb_true_iff, !contains_part. split.
  - intros [[[[H | H] | H] | H] | H]; eexists; split; [| exact H | | exact H | | exact H | | exact H | | exact H]; cbn; tauto.
  - intros (s & I & H). cbn in I. decompose [or] I; subst; tauto.
Qed.

Lemma number_spec : forall t, number_type t -> is_real t = true /\ is_complex t = false.
Proof.
  intros t [H C]. split; [apply real_spec, H |]. unfold is_complex. destruct (contains "complex" t) eqn:E; [| reflexivity].
  apply contains_part in E. contradiction.
Qed.

(** ** Objects *)
Definition extends (w w' : world) : Prop := next w <= next w' /\ forall r, r < next w -> thing_at w' r = thing_at w r.
Lemma extends_refl : forall w, extends w w.
Proof. split; auto. Qed.
Lemma extends_trans : forall a b c, extends a b -> extends b c -> extends a c.
Proof. intros a b c [L E] [L' E']. split; [lia |]. intros r H. rewrite E' by lia. apply E, H. Qed.
Lemma new_extends : forall w t, extends w (snd (new w t)).
Proof. intros w t. split; cbn; [lia |]. intros r H. destruct (Nat.eqb_spec r (next w)); [lia | reflexivity]. Qed.

Section P.
Variable image : Type.
Variable astype : string -> string -> image -> image.
Notation signal := (signal image).
Notation value := (value image).

Definition valid (w : world) (v : value) : Prop := exists_in w (Some v).
Lemma seen_extends : forall w w' v, extends w w' -> valid w v -> seen w' v = seen w v.
Proof. intros w w' v [_ E] V. destruct v; cbn in *; try reflexivity. rewrite E by exact V. reflexivity. Qed.
Lemma valid_extends : forall w w' v, extends w w' -> valid w v -> valid w' v.
Proof. intros w w' v [L _] V. destruct v; cbn in *; auto. lia. Qed.
Lemma copy_extends : forall w v, extends w (fst (copy_value image w v)).
Proof. intros w v. destruct v; cbn; try apply extends_refl. apply (new_extends w (thing_at w r)). Qed.
Lemma copy_seen : forall w v, seen (fst (copy_value image w v)) (snd (copy_value image w v)) = seen w v.
Proof. intros w v. destruct v; cbn; try reflexivity. rewrite Nat.eqb_refl. reflexivity. Qed.
Lemma copy_valid : forall w v, valid w v -> valid (fst (copy_value image w v)) (snd (copy_value image w v)).
Proof. intros w v V. destruct v; cbn in *; auto. Qed.
Lemma copy_new : forall w v r, snd (copy_value image w v) = Object r -> next w <= r.
Proof. intros w v r. destruct v; cbn; try discriminate. intros E. injection E as <-. lia. Qed.

(** ** Classes *)
Lemma subclass_of : forall k t lazy, is_real t = true -> hyperspy_subclass t (name_of k) lazy = Some (class_of k lazy).
Proof. intros k t lazy H. unfold hyperspy_subclass. rewrite H. destruct k, lazy; reflexivity. Qed.

(** ** Signals of patterns *)
Record triple (c : class) (names : string * string * string) (s : signal) (v1 v2 v3 : value) : Prop := {
  t_cls : cls s = c;
  t_1 : attribute s (fst (fst names)) = Some v1;
  t_2 : attribute s (snd (fst names)) = Some v2;
  t_3 : attribute s (snd names) = Some v3 }.
Definition ebsd_names := ("detector", "static_background", "xmap").
Definition master_names := ("hemisphere", "phase", "projection").
Definition names_of (k : kind) := match k with Patterns => ebsd_names | _ => master_names end.
Definition three (k : kind) : bool := match k with VirtualImages => false | _ => true end.

Lemma attributes_of : forall k lazy s v1 v2 v3, three k = true -> triple (class_of k lazy) (names_of k) s v1 v2 v3 ->
  get_custom_attributes image s =
  Some [(fst (fst (names_of k)), v1); (snd (fst (names_of k)), v2); (snd (names_of k), v3)].
Proof.
  intros k lazy s v1 v2 v3 K [C A1 A2 A3]. unfold get_custom_attributes. rewrite C.
  destruct k, lazy; try discriminate K; cbn in A1, A2, A3 |- *; rewrite A1, A2, A3; reflexivity.
Qed.

(** The signal a conversion of HyperSpy's leaves, before attributes are set: the class is that of the kind, and the attributes are
    new ones. *)
Lemma assign_of : forall k lazy w (s : signal), three k = true -> is_real (dtype s) = true -> metadata_type s = name_of k ->
  exists w' s', assign_subclass image lazy w s = Some (w', s') /\ extends w w' /\
    cls s' = class_of k lazy /\ metadata_type s' = name_of k /\ dtype s' = dtype s /\ data s' = data s /\ shape s' = shape s /\ px s' = px s.
Proof.
  intros k lazy w s K R N. unfold assign_subclass. rewrite N, (subclass_of k _ _ R). unfold bind.
  destruct k; try discriminate K; destruct lazy; cbn -[new delete]; rewrite ?andb_false_r; cbn -[new delete];
    (eexists; eexists; split; [reflexivity |]; cbn; repeat split; cbn; try lia; try reflexivity;
     intros r H; destruct (Nat.eqb_spec r (next w)); [lia | reflexivity]).
Qed.

(** Setting three attributes. *)
Lemma set_three : forall k lazy f s v1 v2 v3, three k = true -> cls s = class_of k lazy ->
  triple (class_of k lazy) (names_of k)
    (set_custom_attributes image f [(fst (fst (names_of k)), v1); (snd (fst (names_of k)), v2); (snd (names_of k), v3)] s) (f v1) (f v2) (f v3).
Proof.
  intros k lazy f s v1 v2 v3 K C. unfold set_custom_attributes. rewrite C.
  destruct k; try discriminate K; destruct lazy; split; cbn; rewrite ?C; reflexivity.
Qed.

Definition rest (s s' : signal) (k : kind) (t : string) (d : list image) : Prop :=
  metadata_type s' = name_of k /\ dtype s' = t /\ data s' = d /\ shape s' = shape s /\ px s' = px s.

Section One.
Variables (k : kind) (lazy : bool) (w : world) (s : signal) (v1 v2 v3 : value).
Hypothesis K : three k = true.
Hypothesis T : triple (class_of k lazy) (names_of k) s v1 v2 v3.
Hypothesis N : metadata_type s = name_of k.
Hypothesis R : is_real (dtype s) = true.
Hypothesis V1 : valid w v1.
Hypothesis V2 : valid w v2.
Hypothesis V3 : valid w v3.

Lemma deepcopy_one : exists w' s' u1 u2 u3, deepcopy image w s = Some (w', s') /\ extends w w' /\
  triple (class_of k lazy) (names_of k) s' u1 u2 u3 /\ rest s s' k (dtype s) (data s) /\
  (seen w' u1 = seen w v1 /\ seen w' u2 = seen w v2 /\ seen w' u3 = seen w v3) /\
  (valid w' u1 /\ valid w' u2 /\ valid w' u3) /\
  (forall r, In (Object r) [u1; u2; u3] -> next w <= r).
Proof.
  assert (L := attributes_of k lazy s v1 v2 v3 K T).
  unfold deepcopy. rewrite L. unfold bind.
  destruct (init image w (cls s) (shape s) (px s) [] (fun _ => None)) as [w0 a0] eqn:I.
  assert (E0 : extends w w0).
  { assert (C := t_cls _ _ _ _ _ _ T). rewrite C in I.
    destruct k; try discriminate K; destruct lazy; cbn in I; injection I as <- _;
      (split; cbn; [lia | intros r H; destruct (Nat.eqb_spec r (next w)); [lia | reflexivity]]). }
  assert (O : ours (cls s) && mem (c_type (cls s)) signal_types = true).
  { rewrite (t_cls _ _ _ _ _ _ T). destruct k; try discriminate K; destruct lazy; reflexivity. }
  rewrite O. cbn [copy_values].
  assert (W1 := valid_extends _ _ _ E0 V1). assert (W2 := valid_extends _ _ _ E0 V2). assert (W3 := valid_extends _ _ _ E0 V3).
  pose proof (copy_extends w0 v1) as E1. pose proof (copy_seen w0 v1) as S1. pose proof (copy_valid w0 v1 W1) as U1. pose proof (copy_new w0 v1) as N1.
  destruct (copy_value image w0 v1) as [w1 u1] eqn:C1. cbn [fst snd] in E1, S1, U1, N1.
  pose proof (copy_extends w1 v2) as E2. pose proof (copy_seen w1 v2) as S2. pose proof (copy_valid w1 v2 (valid_extends _ _ _ E1 W2)) as U2. pose proof (copy_new w1 v2) as N2.
  destruct (copy_value image w1 v2) as [w2 u2] eqn:C2. cbn [fst snd] in E2, S2, U2, N2.
  pose proof (copy_extends w2 v3) as E3. pose proof (copy_seen w2 v3) as S3.
  pose proof (copy_valid w2 v3 (valid_extends _ _ _ E2 (valid_extends _ _ _ E1 W3))) as U3. pose proof (copy_new w2 v3) as N3.
  destruct (copy_value image w2 v3) as [w3 u3] eqn:C3. cbn [fst snd] in E3, S3, U3, N3.
  exists w3.
  set (s0 := Signal (cls s) (metadata_type s) (dtype s) (data s) (shape s) (px s) a0).
  eexists. exists u1, u2, u3. split; [reflexivity |].
  assert (E03 : extends w0 w3) by (eapply extends_trans; [exact E1 | eapply extends_trans; [exact E2 | exact E3]]).
  assert (E13 : extends w1 w3) by (eapply extends_trans; [exact E2 | exact E3]).
  split; [eapply extends_trans; [exact E0 | exact E03] |].
  split; [apply (set_three k lazy (fun v => v) s0 u1 u2 u3 K); apply (t_cls _ _ _ _ _ _ T) |].
  split; [repeat split; exact N |].
  split; [split; [| split] |].
  - rewrite (seen_extends w1 w3 u1 E13 U1), S1. apply seen_extends; assumption.
  - rewrite (seen_extends w2 w3 u2 E3 U2), S2. rewrite (seen_extends w0 w1 v2 E1 W2). apply seen_extends; assumption.
  - rewrite S3. rewrite (seen_extends w1 w2 v3 E2 (valid_extends _ _ _ E1 W3)), (seen_extends w0 w1 v3 E1 W3). apply seen_extends; assumption.
  - split; [split; [| split] |].
    + apply (valid_extends w1 w3); assumption.
    + apply (valid_extends w2 w3); assumption.
    + exact U3.
    + destruct E0 as [L0 _], E1 as [L1 _], E2 as [L2 _]. intros r [H | [H | [H | []]]].
      * specialize (N1 r H). lia.
      * specialize (N2 r H). lia.
      * specialize (N3 r H). lia.
Qed.

Lemma as_lazy_one : exists w' s', as_lazy image w s = Some (w', s') /\ extends w w' /\
  triple (class_of k true) (names_of k) s' (make_lazy image v1) (make_lazy image v2) (make_lazy image v3) /\ rest s s' k (dtype s) (data s).
Proof.
  destruct deepcopy_one as (w1 & s1 & u1 & u2 & u3 & D & E1 & T1 & (N1 & R1 & D1 & Sh1 & P1) & _).
  unfold as_lazy. rewrite D. unfold bind at 1. cbn [fst snd].
  destruct (assign_of k true w1 s1 K) as (w2 & s2 & A & E2 & C2 & N2 & R2 & D2 & Sh2 & P2); [rewrite R1; exact R | exact N1 |].
  rewrite A. unfold bind at 1. cbn [fst snd].
  assert (O : ours (cls s) && mem (c_type (cls s2)) signal_types = true).
  { rewrite (t_cls _ _ _ _ _ _ T), C2. destruct k; try discriminate K; destruct lazy; reflexivity. }
  rewrite O, (attributes_of k lazy s v1 v2 v3 K T). unfold bind.
  do 2 eexists. split; [reflexivity |]. split; [eapply extends_trans; eassumption |].
  split; [apply (set_three k true (make_lazy image) s2 v1 v2 v3 K C2) |].
  repeat split; cbn; congruence.
Qed.

Lemma compute_one : lazy = true -> exists w' s', compute image w s = Some (w', s') /\ extends w w' /\
  triple (class_of k false) (names_of k) s' (unmake_lazy image v1) (unmake_lazy image v2) (unmake_lazy image v3) /\ rest s s' k (dtype s) (data s).
Proof.
  intros Hl. unfold compute. rewrite (attributes_of k lazy s v1 v2 v3 K T).
  assert (O : c_lazy (cls s) = true /\ ours (cls s) = true).
  { rewrite (t_cls _ _ _ _ _ _ T), Hl. destruct k; try discriminate K; split; reflexivity. }
  destruct O as [-> ->]. unfold bind at 1.
  destruct (assign_of k false w s K R N) as (w2 & s2 & A & E2 & C2 & N2 & R2 & D2 & Sh2 & P2).
  rewrite A. unfold bind. cbn [fst snd].
  assert (O : ours (cls s2) = true) by (rewrite C2; destruct k; try discriminate K; reflexivity).
  rewrite O. do 2 eexists. split; [reflexivity |]. split; [exact E2 |].
  split; [apply (set_three k false (unmake_lazy image) s2 v1 v2 v3 K C2) |].
  repeat split; cbn; congruence.
Qed.
Lemma compute_refused : lazy = false -> compute image w s = None.
Proof.
  intros Hl. unfold compute. rewrite (t_cls _ _ _ _ _ _ T), Hl. destruct k; reflexivity.
Qed.

(** Setting the type of the signal to one of a simulation. *)
Lemma set_type_one : forall k', k <> Patterns -> k' = PatternSimulation \/ k' = ChannelingSimulation ->
  exists w' s', set_signal_type image (name_of k') w s = Returns w' s' /\ extends w w' /\
  triple (class_of k' lazy) (names_of k') s' v1 v2 v3 /\ rest s s' k' (dtype s) (data s).
Proof.
  intros k' KP K'. unfold set_signal_type.
  assert (M : is_master (cls s) = true /\ c_lazy (cls s) = lazy).
  { rewrite (t_cls _ _ _ _ _ _ T). destruct k; try discriminate K; try congruence; destruct lazy; split; reflexivity. }
  destruct M as [-> ->].
  assert (Q : contains "master" (Detector.lower (name_of k')) = true) by (destruct K' as [-> | ->]; reflexivity).
  rewrite Q, (attributes_of k lazy s v1 v2 v3 K T).
  assert (K3 : three k' = true) by (destruct K' as [-> | ->]; reflexivity).
  destruct (assign_of k' lazy w (set_type image (name_of k') s) K3 R eq_refl) as (w2 & s2 & A & E2 & C2 & N2 & R2 & D2 & Sh2 & P2).
  rewrite A.
  assert (O : ours (cls s2) = true) by (rewrite C2; destruct K' as [-> | ->]; destruct lazy; reflexivity).
  rewrite O. do 2 eexists. split; [reflexivity |]. split; [exact E2 |].
  assert (NN : names_of k = names_of k').
  { destruct k; try discriminate K; try congruence; destruct K' as [-> | ->]; reflexivity. }
  rewrite NN.
  split; [apply (set_three k' lazy (fun v => v) s2 v1 v2 v3 K3 C2) |].
  repeat split; cbn; assumption.
Qed.

End One.

Definition cast_value (t : string) (v : value) : value :=
  match v with Numpy t0 a => Numpy t (astype t0 t a) | Dask t0 a => Dask t (astype t0 t a) | _ => v end.

Lemma change_dtype_one : forall k lazy w s v1 v2 v3 t, three k = true -> triple (class_of k lazy) (names_of k) s v1 v2 v3 ->
  metadata_type s = name_of k -> is_real t = true -> is_complex (dtype s) && negb (is_complex t) = false ->
  exists w' s', change_dtype image astype t w s = Some (w', s') /\ extends w w' /\
  triple (class_of k lazy) (names_of k) s' v1 (match k with Patterns => cast_value t v2 | _ => v2 end) v3 /\
  rest s s' k t (map (astype (dtype s) t) (data s)).
Proof.
  intros k lazy w s v1 v2 v3 t K T N Rt Cx. unfold change_dtype. rewrite Cx.
  rewrite (attributes_of k lazy s v1 v2 v3 K T). unfold bind at 1.
  set (s1 := Signal (cls s) (metadata_type s) t (map (astype (dtype s) t) (data s)) (shape s) (px s) (attribute s)).
  assert (CL : c_lazy (cls s) = lazy).
  { rewrite (t_cls _ _ _ _ _ _ T). destruct k; try discriminate K; destruct lazy; reflexivity. }
  destruct (assign_of k lazy w s1 K Rt N) as (w2 & s2 & A & E2 & C2 & N2 & R2 & D2 & Sh2 & P2).
  rewrite CL, A. unfold bind at 1. cbn [fst snd].
  assert (O : ours (cls s) = true /\ mem (c_type (cls s2)) signal_types = true).
  { rewrite (t_cls _ _ _ _ _ _ T), C2. destruct k; try discriminate K; destruct lazy; split; reflexivity. }
  destruct O as [-> ->].
  assert (TT := set_three k lazy (fun v => v) s2 v1 v2 v3 K C2).
  set (s3 := set_custom_attributes image (fun v => v) [(fst (fst (names_of k)), v1); (snd (fst (names_of k)), v2); (snd (names_of k), v3)] s2) in *.
  assert (RR : rest s s3 k t (map (astype (dtype s) t) (data s))) by (repeat split; cbn; assumption).
  do 2 eexists. split; [reflexivity |]. split; [exact E2 |].
  assert (B : is_ebsd (cls s) && is_ebsd (cls s3) = match k with Patterns => true | _ => false end).
  { rewrite (t_cls _ _ _ _ _ _ T), (t_cls _ _ _ _ _ _ TT). destruct k; try discriminate K; destruct lazy; reflexivity. }
  rewrite B. destruct k; try discriminate K; [| split; assumption | split; assumption].
  clearbody s3. destruct TT as [TC TA1 TA2 TA3]. cbn in TA1, TA2, TA3. destruct RR as (Q1 & Q2 & Q3 & Q4 & Q5).
  unfold background_astype. rewrite TA2.
  destruct v2; (split; [split |]); cbn; try (repeat split); try assumption; try reflexivity.
Qed.

(** ** Histories *)
Definition fine (k : kind) (c : conversion image) : Prop := match k with Patterns => keeps_kind c | _ => keeps_simulation c end.
Definition kind_after (c : conversion image) (k : kind) : kind := kind_asked [c] k.

Lemma seen_make_lazy : forall w v, seen w (make_lazy image v) = seen w v.
Proof. intros w v. destruct v; reflexivity. Qed.
Lemma seen_unmake_lazy : forall w v, seen w (unmake_lazy image v) = seen w v.
Proof. intros w v. destruct v; reflexivity. Qed.
Lemma valid_make_lazy : forall w v, valid w v -> valid w (make_lazy image v).
Proof. intros w v. destruct v; auto. Qed.
Lemma valid_unmake_lazy : forall w v, valid w v -> valid w (unmake_lazy image v).
Proof. intros w v. destruct v; auto. Qed.
Lemma valid_cast : forall w t v, valid w v -> valid w (cast_value t v).
Proof. intros w t v. destruct v; auto. Qed.
Lemma seen_cast : forall w t v, seen w (cast_value t v) = converted_value astype [t] (seen w v).
Proof. intros w t v. destruct v; reflexivity. Qed.

Definition background_rule (k : kind) (ts : list string) (v : seen_value image) : seen_value image :=
  match k with Patterns => converted_value astype ts v | _ => v end.

Lemma one_conversion : forall c k lazy w s v1 v2 v3, three k = true -> fine k c ->
  triple (class_of k lazy) (names_of k) s v1 v2 v3 -> metadata_type s = name_of k -> number_type (dtype s) ->
  valid w v1 -> valid w v2 -> valid w v3 ->
  exists w' s' u1 u2 u3, convert image astype c (w, s) = (w', s') /\
    (three (kind_after c k) = true /\ (k = Patterns <-> kind_after c k = Patterns)) /\
    triple (class_of (kind_after c k) (laziness_asked [c] lazy)) (names_of (kind_after c k)) s' u1 u2 u3 /\
    metadata_type s' = name_of (kind_after c k) /\ number_type (dtype s') /\
    (valid w' u1 /\ valid w' u2 /\ valid w' u3) /\
    (seen w' u1 = seen w v1 /\ seen w' u2 = background_rule k (types_asked [c]) (seen w v2) /\ seen w' u3 = seen w v3) /\
    dtype s' = last (types_asked [c]) (dtype s) /\ data s' = map (fun p => snd (converted astype (types_asked [c]) (dtype s, p))) (data s) /\
    shape s' = shape s /\ px s' = px s.
Proof.
  intros c k lazy w s v1 v2 v3 K F T N Nt V1 V2 V3.
  destruct (number_spec _ Nt) as [R C0].
  assert (ID : forall l : list image, l = map (fun p => p) l) by (intros l; rewrite map_id; reflexivity).
  assert (BI : forall v, background_rule k [] v = v) by (intros v; destruct k; try reflexivity; destruct v; reflexivity).
  destruct c as [| | t | | t | f t].
  - destruct (as_lazy_one k lazy w s v1 v2 v3 K T N R V1 V2 V3) as (w' & s' & E & X & T' & N' & R' & D' & Sh' & P').
    exists w', s', (make_lazy image v1), (make_lazy image v2), (make_lazy image v3).
    cbn [convert]. rewrite E. split; [reflexivity |]. split; [split; [exact K | reflexivity] |].
    split; [exact T' |]. split; [exact N' |]. split; [rewrite R'; exact Nt |].
    split; [split; [| split]; apply valid_make_lazy; eapply valid_extends; eassumption |].
    rewrite !seen_make_lazy. cbn [types_asked flat_map app last converted fold_left snd]. rewrite BI.
    split; [split; [| split]; apply seen_extends; assumption |].
    rewrite <- ID. auto.
  - destruct lazy.
    + destruct (compute_one k true w s v1 v2 v3 K T N R eq_refl) as (w' & s' & E & X & T' & N' & R' & D' & Sh' & P').
      exists w', s', (unmake_lazy image v1), (unmake_lazy image v2), (unmake_lazy image v3).
      cbn [convert]. rewrite E. split; [reflexivity |]. split; [split; [exact K | reflexivity] |].
      split; [exact T' |]. split; [exact N' |]. split; [rewrite R'; exact Nt |].
      split; [split; [| split]; apply valid_unmake_lazy; eapply valid_extends; eassumption |].
      rewrite !seen_unmake_lazy. cbn [types_asked flat_map app last converted fold_left snd]. rewrite BI.
      split; [split; [| split]; apply seen_extends; assumption |].
      rewrite <- ID. auto.
    + exists w, s, v1, v2, v3. cbn [convert]. rewrite (compute_refused k false w s v1 v2 v3 K T N eq_refl).
      split; [reflexivity |]. split; [split; [exact K | reflexivity] |]. split; [exact T |]. split; [exact N |]. split; [exact Nt |].
      split; [auto |]. cbn [types_asked flat_map app last converted fold_left snd]. rewrite BI, <- ID. auto.
  - assert (Ht : number_type t) by (destruct k; exact F). destruct (number_spec _ Ht) as [Rt Ct].
    destruct (change_dtype_one k lazy w s v1 v2 v3 t K T N Rt) as (w' & s' & E & X & T' & N' & R' & D' & Sh' & P'); [rewrite C0; reflexivity |].
    exists w', s', v1, (match k with Patterns => cast_value t v2 | _ => v2 end), v3.
    cbn [convert]. rewrite E. split; [reflexivity |]. split; [split; [exact K | reflexivity] |].
    split; [exact T' |]. split; [exact N' |]. split; [rewrite R'; exact Ht |].
    cbn [types_asked flat_map app last converted fold_left snd].
    split.
    { split; [eapply valid_extends; eassumption |]. split; [| eapply valid_extends; eassumption].
      destruct k; [apply valid_cast |..]; eapply valid_extends; eassumption. }
    split; [split; [apply seen_extends; assumption |]; split; [| apply seen_extends; assumption] |].
    { destruct k; cbn [background_rule]; [rewrite seen_cast; f_equal |..]; apply seen_extends; assumption. }
    auto.
  - destruct (deepcopy_one k lazy w s v1 v2 v3 K T N V1 V2 V3) as (w' & s' & u1 & u2 & u3 & E & X & T' & (N' & R' & D' & Sh' & P') & S' & V' & _).
    exists w', s', u1, u2, u3.
    cbn [convert]. rewrite E. split; [reflexivity |]. split; [split; [exact K | reflexivity] |].
    split; [exact T' |]. split; [exact N' |]. split; [rewrite R'; exact Nt |].
    split; [exact V' |]. cbn [types_asked flat_map app last converted fold_left snd]. rewrite BI, <- ID. auto.
  - assert (KP : k <> Patterns) by (intros ->; exact F).
    assert (F' : t = name_of PatternSimulation \/ t = name_of ChannelingSimulation) by (destruct k; [contradiction | exact F | exact F | exact F]).
    assert (KA : t = name_of (kind_after (SetType t) k) /\ (kind_after (SetType t) k = PatternSimulation \/ kind_after (SetType t) k = ChannelingSimulation)).
    { destruct F' as [-> | ->]; cbn; auto. }
    destruct KA as [KA KB]. set (k' := kind_after (SetType t) k) in *.
    destruct (set_type_one k lazy w s v1 v2 v3 K T N R k' KP KB) as (w' & s' & E & X & T' & N' & R' & D' & Sh' & P').
    rewrite <- KA in E. exists w', s', v1, v2, v3. cbn [convert]. rewrite E. split; [reflexivity |].
    split; [split; [destruct KB as [-> | ->]; reflexivity | split; intros Q; [congruence | destruct KB; congruence]] |].
    split; [exact T' |]. split; [exact N' |]. split; [rewrite R'; exact Nt |].
    split; [split; [| split]; eapply valid_extends; eassumption |].
    cbn [types_asked flat_map app last converted fold_left snd]. rewrite BI, <- ID.
    split; [split; [| split]; apply seen_extends; assumption |]. auto.
  - destruct k; contradiction F.
Qed.

Lemma converted_app : forall ts ts' ta, converted astype (ts ++ ts')%list ta = converted astype ts' (converted astype ts ta).
Proof. intros ts ts' ta. unfold converted. apply fold_left_app. Qed.
Lemma converted_value_app : forall ts ts' v, converted_value astype (ts ++ ts')%list v = converted_value astype ts' (converted_value astype ts v).
Proof.
  intros ts ts' v. destruct v; try reflexivity. cbn. rewrite converted_app.
  destruct (converted astype ts (dtype, a)) as [t' a']. reflexivity.
Qed.
Lemma converted_type : forall ts t a, fst (converted astype ts (t, a)) = last ts t.
Proof.
  induction ts as [| x ts IH]; intros t a; [reflexivity |]. cbn [converted fold_left fst snd].
  change (fst (converted astype ts (x, astype t x a)) = last (x :: ts) t). rewrite IH.
  destruct ts; [reflexivity |]. clear. revert s x t. induction ts; intros; [reflexivity |]. apply IHts.
Qed.
Lemma last_app_type : forall (ts : list string) t t', last (t' :: ts) t = last ts t'.
Proof. induction ts as [| x ts IH]; intros t t'; [reflexivity |]. change (last (x :: ts) t = last (x :: ts) t'). rewrite !IH. reflexivity. Qed.
Lemma laziness_cons : forall c h lazy, laziness_asked (c :: h) lazy = laziness_asked (image := image) h (laziness_asked [c] lazy).
Proof. reflexivity. Qed.

Lemma history : forall h k lazy w s v1 v2 v3, three k = true -> Forall (fine k) h ->
  triple (class_of k lazy) (names_of k) s v1 v2 v3 -> metadata_type s = name_of k -> number_type (dtype s) ->
  valid w v1 -> valid w v2 -> valid w v3 ->
  exists w' s' u1 u2 u3, run image astype h (w, s) = (w', s') /\
    triple (class_of (kind_asked h k) (laziness_asked h lazy)) (names_of (kind_asked h k)) s' u1 u2 u3 /\
    metadata_type s' = name_of (kind_asked h k) /\ number_type (dtype s') /\
    (valid w' u1 /\ valid w' u2 /\ valid w' u3) /\
    (seen w' u1 = seen w v1 /\ seen w' u2 = background_rule k (types_asked h) (seen w v2) /\ seen w' u3 = seen w v3) /\
    dtype s' = last (types_asked h) (dtype s) /\ data s' = map (fun p => snd (converted astype (types_asked h) (dtype s, p))) (data s) /\
    shape s' = shape s /\ px s' = px s.
Proof.
  induction h as [| c h IH]; intros k lazy w s v1 v2 v3 K F T N Nt V1 V2 V3.
  - exists w, s, v1, v2, v3. split; [reflexivity |]. split; [exact T |]. split; [exact N |]. split; [exact Nt |]. split; [auto |].
    split; [split; [reflexivity | split; [destruct k; try reflexivity; cbn; destruct (seen w v2); reflexivity | reflexivity]] |].
    cbn. rewrite map_id. auto.
  - inversion F as [| ? ? Fc Fh]; subst.
    destruct (one_conversion c k lazy w s v1 v2 v3 K Fc T N Nt V1 V2 V3)
      as (w1 & s1 & u1 & u2 & u3 & E1 & (K1 & P1) & T1 & N1 & Nt1 & (W1 & W2 & W3) & (S1 & S2 & S3) & R1 & D1 & Sh1 & Px1).
    assert (Fh' : Forall (fine (kind_after c k)) h).
    { eapply Forall_impl; [| exact Fh]. intros c' H. destruct k; [rewrite (proj1 P1 eq_refl); exact H |..];
        (destruct (kind_after c _) eqn:KK in |- *; [exfalso; apply P1 in KK; discriminate | exact H ..]). }
    destruct (IH (kind_after c k) (laziness_asked [c] lazy) w1 s1 u1 u2 u3 K1 Fh' T1 N1 Nt1 W1 W2 W3)
      as (w2 & s2 & x1 & x2 & x3 & E2 & T2 & N2 & Nt2 & X & (S1' & S2' & S3') & R2 & D2 & Sh2 & Px2).
    exists w2, s2, x1, x2, x3.
    assert (TA : types_asked (c :: h) = (types_asked [c] ++ types_asked h)%list).
    { cbn [types_asked flat_map]. rewrite app_nil_r. reflexivity. }
    split.
    { unfold run in *. cbn [fold_left]. rewrite E1. exact E2. }
    split; [exact T2 |]. split; [exact N2 |]. split; [exact Nt2 |]. split; [exact X |].
    split.
    { split; [congruence |]. split; [| congruence]. rewrite S2', S2, TA. destruct k.
      - rewrite (proj1 P1 eq_refl). cbn [background_rule]. symmetry. apply converted_value_app.
      - destruct (kind_after c PatternSimulation) eqn:KK; [discriminate (proj2 P1 eq_refl) | reflexivity ..].
      - destruct (kind_after c ChannelingSimulation) eqn:KK; [discriminate (proj2 P1 eq_refl) | reflexivity ..].
      - destruct (kind_after c VirtualImages) eqn:KK; [discriminate (proj2 P1 eq_refl) | reflexivity ..]. }
    rewrite TA. split.
    { rewrite R2, R1. destruct c; try reflexivity. cbn [types_asked flat_map app]. symmetry. apply last_app_type. }
    split; [| split; congruence].
    rewrite D2, D1, map_map. apply map_ext. intros p. rewrite converted_app.
    f_equal. f_equal.
    rewrite (surjective_pairing (converted astype (types_asked [c]) (dtype s, p))). rewrite converted_type. rewrite R1. reflexivity.
Qed.

End P.
