(** C86: arrays of detector coordinates are converted point by point, for each projection center or for chosen ones. *)
From Coq Require Import String.
From Coq Require Import List Arith ZArith Reals Bool Lia Lra.
From Verif Require Import Model.NdArray Model.Detector Model.CoordinateConversion Proofs.ListLemmas Proofs.DetectorProofs
  Proofs.CoordinateConversionProofs Spec.CoordinateSpec.
Import ListNotations.
Local Open Scope nat_scope.

(** The two methods, each with the conversion of one point for one projection center (C10 says what these are). *)
Definition methods (d : detector) (pcs : arr pc3) : list ((arr R -> pos -> option (arr R)) * (pc3 -> R * R -> R * R)) :=
  [(CoordinateConversion.to_gnomonic_coords d pcs, to_gnomonic d); (CoordinateConversion.to_pixel_coords d pcs, to_pixel d)].
(** A position, or positions, that can be given for a map of the given shape. *)
Definition names_positions (nav : list nat) (p : pos) (es : list entry) : Prop :=
  (exists z, p = Number z /\ es = [At z] \/ p = Tuple [At z] /\ es = [At z]) /\ length nav = 1 /\ in_range nav es
  \/ p = Tuple es /\ length nav = 2 /\ in_range nav es.

Lemma method_shape d pcs f one : In (f, one) (methods d pcs) -> exists fac : pc3 -> factors,
  (forall p yx, conv (fac p) yx = one p yx) /\
  forall c p, f c p = match parse_sample_position (ndim pcs) p with None => None | Some ix => CoordinateConversion.convert_coordinates c (amap fac pcs) ix end.
Proof.
  intros [H|[H|[]]]; injection H as <- <-; [exists (pix_to_gn d)|exists (gn_to_pix d)]; split; reflexivity.
Qed.
Lemma firstn_prefix (s cs : list nat) : (length s + 2 <=? length (points_shape cs)) && shape_eqb (firstn (length s) (points_shape cs)) s = true <->
  exists rest, rest <> [] /\ cs = s ++ rest.
Proof.
  unfold points_shape. rewrite andb_true_iff, Nat.leb_le, shape_eqb_eq, app_length. cbn [length]. split.
  - intros [L E]. rewrite firstn_app in E. replace (length s - length cs) with 0 in E by lia. rewrite firstn_O, app_nil_r in E.
    exists (skipn (length s) cs). split.
    + intros Q. apply (f_equal (@length nat)) in Q. rewrite skipn_length in Q. cbn in Q. lia.
    + rewrite <- E at 1. symmetry. apply firstn_skipn.
  - intros (rest & NE & ->). rewrite app_length. destruct rest as [|a rest]; [congruence|]. cbn [length]. split; [lia|].
    rewrite <- app_assoc, firstn_app, Nat.sub_diag, firstn_all, firstn_O, app_nil_r. reflexivity.
Qed.
Lemma conv_factors (f : factors) yx : conv (Factors (m_x f) (c_x f) (m_y f) (c_y f)) yx = conv f yx.
Proof. reflexivity. Qed.
Lemma shared_result c fs cs : shape (atleast_2d c) = points_shape cs -> ~ (exists rest, rest <> [] /\ cs = shape fs ++ rest) ->
  exists r, CoordinateConversion.convert_coordinates c fs None = Some r /\ shape r = shape fs ++ points_shape cs /\
    forall i j, within (shape fs) i -> within cs j -> point r (i ++ j) = conv (at_ fs i) (point (atleast_2d c) j).
Proof.
  intros Ec NP. unfold CoordinateConversion.convert_coordinates. rewrite Ec, points_last. cbn [Nat.eqb negb].
  unfold ndim. rewrite Ec.
  destruct (_ && _) eqn:P; [exfalso; apply NP; apply firstn_prefix; exact P|].
  assert (N : length (shape fs ++ points_shape cs) - 1 = length (shape fs ++ cs)).
  { unfold points_shape. rewrite !app_length. cbn [length]. lia. }
  rewrite N.
  destruct (shared_ok (shape fs) cs (atleast_2d c) (amap m_x fs) (amap c_x fs) (amap m_y fs) (amap c_y fs) Ec eq_refl eq_refl eq_refl eq_refl)
    as (r & C & S & Q).
  exists r. split; [exact C|]. split; [exact S|]. intros i j Wi Wj. rewrite (Q i j Wi Wj). apply conv_factors.
Qed.
Lemma each_result c fs rest : shape (atleast_2d c) = shape fs ++ points_shape rest -> rest <> [] ->
  exists r, CoordinateConversion.convert_coordinates c fs None = Some r /\ shape r = shape fs ++ points_shape rest /\
    forall i j, within (shape fs) i -> within rest j -> point r (i ++ j) = conv (at_ fs i) (point (atleast_2d c) (i ++ j)).
Proof.
  intros Ec NE. assert (Ec' : shape (atleast_2d c) = points_shape (shape fs ++ rest)) by (rewrite Ec; unfold points_shape; apply app_assoc).
  unfold CoordinateConversion.convert_coordinates. rewrite Ec', points_last. cbn [Nat.eqb negb].
  unfold ndim. rewrite Ec'.
  destruct (_ && _) eqn:P.
  2:{ exfalso. rewrite <- not_true_iff_false in P. apply P. apply firstn_prefix. exists rest. split; [exact NE|reflexivity]. }
  assert (N : length (points_shape (shape fs ++ rest)) - 1 = length (shape fs ++ rest)).
  { unfold points_shape. rewrite !app_length. cbn [length]. lia. }
  rewrite N.
  destruct (each_ok (shape fs) rest (atleast_2d c) (amap m_x fs) (amap c_x fs) (amap m_y fs) (amap c_y fs) Ec eq_refl eq_refl eq_refl eq_refl)
    as (r & C & S & Q).
  replace (points_shape (shape fs ++ rest)) with (shape fs ++ points_shape rest) by (unfold points_shape; apply app_assoc).
  exists r. split; [exact C|]. split; [exact S|]. intros i j Wi Wj. rewrite (Q i j Wi Wj). apply conv_factors.
Qed.
Lemma indexed_result c fs cs es : shape (atleast_2d c) = points_shape cs -> in_range (shape fs) es ->
  exists r, CoordinateConversion.convert_coordinates c fs (Some es) = Some r /\ shape r = selected_shape (shape fs) es ++ points_shape cs /\
    forall i k j, selects (shape fs) es i k -> within (selected_shape (shape fs) es) i -> within cs j ->
      point r (i ++ j) = conv (at_ fs k) (point (atleast_2d c) j).
Proof.
  intros Ec IR. destruct (index_ok _ _ IR) as (g & G & P).
  unfold CoordinateConversion.convert_coordinates, getitem. cbn [amap shape]. rewrite Ec, points_last, G. cbn [Nat.eqb negb shape at_ amap].
  destruct (length (selected_shape (shape fs) es) =? 0) eqn:Z.
  - apply Nat.eqb_eq, length_zero_iff_nil in Z. rewrite Z. rewrite <- Ec.
    destruct (single_ok cs (atleast_2d c) (Arr [] (fun i => m_x (at_ fs (g i)))) (Arr [] (fun i => c_x (at_ fs (g i))))
      (Arr [] (fun i => m_y (at_ fs (g i)))) (Arr [] (fun i => c_y (at_ fs (g i)))) Ec eq_refl eq_refl eq_refl eq_refl) as (r & C & S & Q).
    exists r. split; [exact C|]. split; [rewrite Ec; exact S|]. intros i k j Hs Wi Wj. inversion Wi; subst. cbn [app]. rewrite (Q j Wj). cbn [at_].
    rewrite conv_factors. rewrite Z in P. destruct (P [] within_nil) as [Hg _]. rewrite (selects_unique _ _ _ _ _ Hs Hg). reflexivity.
  - set (t := selected_shape (shape fs) es) in *.
    assert (N : length (t ++ points_shape cs) - 1 = length (t ++ cs)).
    { unfold points_shape. rewrite !app_length. cbn [length]. lia. }
    rewrite N.
    destruct (shared_ok t cs (atleast_2d c) (Arr t (fun i => m_x (at_ fs (g i)))) (Arr t (fun i => c_x (at_ fs (g i))))
      (Arr t (fun i => m_y (at_ fs (g i)))) (Arr t (fun i => c_y (at_ fs (g i)))) Ec eq_refl eq_refl eq_refl eq_refl) as (r & C & S & Q).
    exists r. split; [exact C|]. split; [exact S|]. intros i k j Hs Wi Wj. rewrite (Q i j Wi Wj). cbn [at_]. rewrite conv_factors.
    destruct (P i Wi) as [Hg _]. rewrite (selects_unique _ _ _ _ _ Hs Hg). reflexivity.
Qed.
Lemma atleast_2d_points c cs : shape c = points_shape cs -> cs <> [] ->
  shape (atleast_2d c) = points_shape cs /\ forall j, within cs j -> point (atleast_2d c) j = point c j.
Proof.
  intros E NE. destruct (atleast_points cs c E) as (lead & S & [[-> _]|[_ ->]] & P); [|congruence].
  split; [exact S|]. intros j W. exact (P [] j within_nil W).
Qed.

(** ** All positions *)
Theorem C86_same_points_for_every_position : forall d pcs f one c cs, In (f, one) (methods d pcs) ->
  shape c = points_shape cs -> cs <> [] -> ~ (exists rest, rest <> [] /\ cs = shape pcs ++ rest) ->
  exists r, f c NoPos = Some r /\ shape r = shape pcs ++ shape c /\
    forall i j, within (shape pcs) i -> within cs j -> point r (i ++ j) = one (at_ pcs i) (point c j).
Proof.
  intros d pcs f one c cs M E NE NP. destruct (method_shape _ _ _ _ M) as (fac & F & Ef). rewrite Ef. cbn [parse_sample_position].
  destruct (atleast_2d_points c cs E NE) as [E2 P2].
  destruct (shared_result c (amap fac pcs) cs E2 NP) as (r & C & S & Q). exists r. rewrite E. split; [exact C|]. split; [exact S|].
  intros i j Wi Wj. rewrite (Q i j Wi Wj), (P2 j Wj). cbn [amap at_]. apply F.
Qed.
(** One point is treated as a list with one point. *)
Theorem C86_single_point : forall d pcs f one c, In (f, one) (methods d pcs) -> shape c = [2] -> shape pcs <> [] ->
  exists r, f c NoPos = Some r /\ shape r = shape pcs ++ [1; 2] /\
    forall i, within (shape pcs) i -> point r (i ++ [0]) = one (at_ pcs i) (point c []).
Proof.
  intros d pcs f one c M E NP. destruct (method_shape _ _ _ _ M) as (fac & F & Ef). rewrite Ef. cbn [parse_sample_position].
  destruct (atleast_points [] c E) as (lead & S2 & [[_ X]|[-> _]] & P2); [congruence|]. cbn [app] in S2.
  assert (N : ~ (exists rest, rest <> [] /\ [1] = shape (amap fac pcs) ++ rest)).
  { cbn [amap shape]. intros (rest & NE & Q). destruct (shape pcs) as [|a s]; [congruence|]. destruct s; destruct rest; cbn in Q; congruence. }
  destruct (shared_result c (amap fac pcs) [1] S2 N) as (r & C & S & Q). exists r. split; [exact C|]. split; [exact S|].
  intros i Wi. assert (W0 : within [1] [0]) by (repeat constructor). rewrite (Q i [0] Wi W0). cbn [amap at_].
  rewrite F. f_equal. exact (P2 [0] [] W0 within_nil).
Qed.
Theorem C86_points_of_each_position : forall d pcs f one c rest, In (f, one) (methods d pcs) ->
  shape c = shape pcs ++ points_shape rest -> rest <> [] ->
  exists r, f c NoPos = Some r /\ shape r = shape c /\
    forall i j, within (shape pcs) i -> within rest j -> point r (i ++ j) = one (at_ pcs i) (point c (i ++ j)).
Proof.
  intros d pcs f one c rest M E NE. destruct (method_shape _ _ _ _ M) as (fac & F & Ef). rewrite Ef. cbn [parse_sample_position].
  assert (E' : shape c = points_shape (shape pcs ++ rest)) by (rewrite E; unfold points_shape; apply app_assoc).
  destruct (atleast_2d_points c _ E') as [E2 P2]. { destruct rest; [congruence|]. destruct (shape pcs); discriminate. }
  assert (E3 : shape (atleast_2d c) = shape (amap fac pcs) ++ points_shape rest) by (rewrite E2, <- E'; exact E).
  destruct (each_result c (amap fac pcs) rest E3 NE) as (r & C & S & Q). exists r. rewrite E. split; [exact C|]. split; [exact S|].
  intros i j Wi Wj. rewrite (Q i j Wi Wj). cbn [amap at_]. rewrite F, P2; [reflexivity|]. apply within_app; assumption.
Qed.

(** ** Chosen positions *)
Lemma parse_some nav p es : names_positions nav p es -> parse_sample_position (length nav) p = Some (Some es) /\ in_range nav es.
Proof.
  intros [((z & [[-> ->]|[-> ->]]) & L & R)|(-> & L & R)]; rewrite L; (split; [|exact R]); try reflexivity.
  destruct R as [Le _]. rewrite L in Le. destruct es as [|e [|e' [|]]]; try discriminate. reflexivity.
Qed.
Theorem C86_chosen_positions : forall d pcs f one c cs p es, In (f, one) (methods d pcs) ->
  shape c = points_shape cs -> cs <> [] -> names_positions (shape pcs) p es ->
  exists r, f c p = Some r /\ shape r = selected_shape (shape pcs) es ++ shape c /\
    forall i k j, selects (shape pcs) es i k -> within (selected_shape (shape pcs) es) i -> within cs j ->
      point r (i ++ j) = one (at_ pcs k) (point c j).
Proof.
  intros d pcs f one c cs p es M E NE NP. destruct (method_shape _ _ _ _ M) as (fac & F & Ef). rewrite Ef.
  destruct (parse_some _ _ _ NP) as [Ep R]. unfold ndim. rewrite Ep.
  destruct (atleast_2d_points c cs E NE) as [E2 P2].
  destruct (indexed_result c (amap fac pcs) cs es E2 R) as (r & C & S & Q). exists r. rewrite E. split; [exact C|]. split; [exact S|].
  intros i k j Hs Wi Wj. rewrite (Q i k j Hs Wi Wj), (P2 j Wj). cbn [amap at_]. apply F.
Qed.
(** Every chosen position is one of the map. *)
Lemma index_ok' s es i : in_range s es -> within (selected_shape s es) i -> exists k, selects s es i k /\ within s k.
Proof. intros R W. destruct (index_ok s es R) as (g & _ & P). exists (g i). apply P. exact W. Qed.
Theorem C86_selection : forall nav p es i, names_positions nav p es -> within (selected_shape nav es) i ->
  exists k, selects nav es i k /\ within nav k.
Proof. intros nav p es i H W. apply (index_ok' nav es i); [apply (parse_some _ _ _ H)|exact W]. Qed.
(** One position: an integer or integers. Counting from the end is possible. *)
Theorem C86_one_position : forall d pcs f one c cs p zs ks, In (f, one) (methods d pcs) ->
  shape c = points_shape cs -> cs <> [] -> names_positions (shape pcs) p (map At zs) -> Forall2 (fun nz k => counts_to (fst nz) (snd nz) k) (combine (shape pcs) zs) ks ->
  exists r, f c p = Some r /\ shape r = shape c /\ forall j, within cs j -> point r j = one (at_ pcs ks) (point c j).
Proof.
  intros d pcs f one c cs p zs ks M E NE NP K. destruct (C86_chosen_positions _ _ _ _ _ _ _ _ M E NE NP) as (r & C & S & Q).
  assert (Sh : forall s zs, length zs = length s -> selected_shape s (map At zs) = []).
  { clear. induction s as [|n s IH]; intros [|z zs] L; cbn in *; try discriminate; [reflexivity|]. apply IH. congruence. }
  assert (L : length zs = length (shape pcs)).
  { destruct (parse_some _ _ _ NP) as [_ [L _]]. rewrite map_length in L. exact L. }
  assert (Se : selects (shape pcs) (map At zs) [] ks).
  { clear - L K. revert zs ks L K. induction (shape pcs) as [|n s IH]; intros [|z zs] ks L K; cbn in L; try discriminate.
    - inversion K; subst. constructor.
    - cbn [combine] in K. inversion K as [|a k b ks' H1 H2]; subst. cbn [fst snd] in H1. cbn [map]. constructor; [exact H1|].
      apply IH; [congruence|exact H2]. }
  rewrite (Sh _ _ L) in *. exists r. split; [exact C|]. split; [exact S|]. intros j Wj. exact (Q [] ks j Se within_nil Wj).
Qed.

(** ** What is accepted *)
Theorem C86_accepted : forall d pcs f one c p, In (f, one) (methods d pcs) ->
  (f c p <> None <-> (exists cs, shape c = points_shape cs) /\ (p = NoPos \/ exists es, names_positions (shape pcs) p es)).
Proof.
  intros d pcs f one c p M. destruct (method_shape _ _ _ _ M) as (fac & F & Ef). rewrite Ef.
  assert (Sc : forall ix, CoordinateConversion.convert_coordinates c (amap fac pcs) ix <> None -> exists cs, shape c = points_shape cs).
  { intros ix H. unfold CoordinateConversion.convert_coordinates in H. destruct (last (shape (atleast_2d c)) 0 =? 2) eqn:L; [|exfalso; apply H; reflexivity].
    apply Nat.eqb_eq in L. unfold atleast_2d in L. destruct (shape c) as [|n [|m s]] eqn:Es.
    - cbn in L. discriminate.
    - cbn in L. exists []. rewrite L. reflexivity.
    - rewrite Es in L. destruct (last_is_points (n :: m :: s)) as (cs & Q); [discriminate|exact L|]. exists cs. exact Q. }
  assert (At2 : forall cs, shape c = points_shape cs -> exists cs', shape (atleast_2d c) = points_shape cs').
  { intros cs E. destruct (atleast_points cs c E) as (lead & S & _ & _). eexists. exact S. }
  split.
  - intros H. destruct (parse_sample_position (ndim pcs) p) as [ix|] eqn:Ep; [|congruence]. split; [exact (Sc ix H)|].
    unfold ndim in Ep. destruct p as [|z|es|]; [left; reflexivity|right..|discriminate].
    + cbn [parse_sample_position] in Ep. destruct (length (shape pcs) =? 1) eqn:L1; [|discriminate]. injection Ep as <-. apply Nat.eqb_eq in L1.
      exists [At z]. left. split; [exists z; left; split; reflexivity|]. split; [exact L1|].
      unfold CoordinateConversion.convert_coordinates, getitem in H. cbn [amap shape] in H. destruct (index_axes (shape pcs) [At z]) eqn:G.
      * eapply index_some. exact G.
      * exfalso. apply H. destruct (negb _); reflexivity.
    + assert (IR : in_range (shape pcs) es /\ ix = Some es /\ (length (shape pcs) = 1 /\ (exists z, es = [At z]) \/ length (shape pcs) = 2)).
      { cbn [parse_sample_position] in Ep. destruct es as [|e [|e' [|]]]; try discriminate.
        - destruct (length (shape pcs) =? 1) eqn:L1; [|discriminate]. apply Nat.eqb_eq in L1. cbn [negb] in Ep. destruct e as [z|]; [|discriminate].
          injection Ep as <-. split; [|split; [reflexivity|left; split; [exact L1|exists z; reflexivity]]].
          unfold CoordinateConversion.convert_coordinates, getitem in H. cbn [amap shape] in H. destruct (index_axes (shape pcs) [At z]) eqn:G.
          + eapply index_some. exact G.
          + exfalso. apply H. destruct (negb _); reflexivity.
        - destruct (length (shape pcs) =? 2) eqn:L1; [|discriminate]. apply Nat.eqb_eq in L1. cbn [negb] in Ep.
          injection Ep as <-. split; [|split; [reflexivity|right; exact L1]].
          unfold CoordinateConversion.convert_coordinates, getitem in H. cbn [amap shape] in H. destruct (index_axes (shape pcs) [e; e']) eqn:G.
          + eapply index_some. exact G.
          + exfalso. apply H. destruct (negb _); reflexivity. }
      destruct IR as (IR & _ & [[L1 (z & ->)]|L2]).
      * exists [At z]. left. split; [exists z; right; split; reflexivity|]. split; assumption.
      * exists es. right. split; [reflexivity|]. split; assumption.
  - intros [(cs & E) [->|(es & NP)]].
    + destruct (At2 cs E) as (cs' & E2). cbn [parse_sample_position].
      destruct ((length (shape pcs) + 2 <=? length (points_shape cs')) && shape_eqb (firstn (length (shape pcs)) (points_shape cs')) (shape pcs)) eqn:P.
      * apply firstn_prefix in P. destruct P as (rest & NE & ->). assert (E3 : shape (atleast_2d c) = shape (amap fac pcs) ++ points_shape rest).
        { rewrite E2. unfold points_shape. cbn [amap shape]. symmetry. apply app_assoc. }
        destruct (each_result c (amap fac pcs) rest E3 NE) as (r & C & _). rewrite C. discriminate.
      * assert (N : ~ (exists rest, rest <> [] /\ cs' = shape (amap fac pcs) ++ rest)).
        { intros Q. apply firstn_prefix in Q. cbn [amap shape] in Q. congruence. }
        destruct (shared_result c (amap fac pcs) cs' E2 N) as (r & C & _). rewrite C. discriminate.
    + destruct (parse_some _ _ _ NP) as [Ep R]. unfold ndim. rewrite Ep. destruct (At2 cs E) as (cs' & E2).
      destruct (indexed_result c (amap fac pcs) cs' es E2 R) as (r & C & _). rewrite C. discriminate.
Qed.

(** ** Back again *)
(** The other method of a method. *)
Lemma inverse_points d pcs f one g two i yx : valid d -> (forall i, within (shape pcs) i -> pcz (at_ pcs i) <> 0%R) ->
  methods d pcs = [(f, one); (g, two)] \/ methods d pcs = [(g, two); (f, one)] -> within (shape pcs) i ->
  two (at_ pcs i) (one (at_ pcs i) yx) = yx.
Proof.
  intros V Z M W. destruct M as [M|M]; unfold methods in M; injection M as <- <- <- <-; [apply pixel_gnomonic|apply gnomonic_pixel]; auto.
Qed.
Theorem C86_round_trip : forall d pcs f one g two c cs r, valid d -> (forall i, within (shape pcs) i -> pcz (at_ pcs i) <> 0%R) ->
  methods d pcs = [(f, one); (g, two)] \/ methods d pcs = [(g, two); (f, one)] ->
  shape c = points_shape cs -> cs <> [] -> ~ (exists rest, rest <> [] /\ cs = shape pcs ++ rest) -> f c NoPos = Some r ->
  exists r', g r NoPos = Some r' /\ shape r' = shape pcs ++ shape c /\
    forall i j, within (shape pcs) i -> within cs j -> point r' (i ++ j) = point c j.
Proof.
  intros d pcs f one g two c cs r V Z M E NE NP H.
  assert (Mf : In (f, one) (methods d pcs)) by (destruct M as [->| ->]; cbn; auto).
  assert (Mg : In (g, two) (methods d pcs)) by (destruct M as [->| ->]; cbn; auto).
  destruct (C86_same_points_for_every_position _ _ _ _ _ _ Mf E NE NP) as (r0 & C & S & P). rewrite H in C. injection C as <-. rewrite E in S.
  destruct (C86_points_of_each_position _ _ _ _ r cs Mg S NE) as (r' & C' & S' & P'). exists r'. split; [exact C'|].
  split; [rewrite S', S, E; reflexivity|]. intros i j Wi Wj. rewrite (P' i j Wi Wj), (P i j Wi Wj). eapply inverse_points; eassumption.
Qed.
Theorem C86_round_trip_of_each_position : forall d pcs f one g two c rest r, valid d -> (forall i, within (shape pcs) i -> pcz (at_ pcs i) <> 0%R) ->
  methods d pcs = [(f, one); (g, two)] \/ methods d pcs = [(g, two); (f, one)] ->
  shape c = shape pcs ++ points_shape rest -> rest <> [] -> f c NoPos = Some r ->
  exists r', g r NoPos = Some r' /\ shape r' = shape c /\
    forall i j, within (shape pcs) i -> within rest j -> point r' (i ++ j) = point c (i ++ j).
Proof.
  intros d pcs f one g two c rest r V Z M E NE H.
  assert (Mf : In (f, one) (methods d pcs)) by (destruct M as [->| ->]; cbn; auto).
  assert (Mg : In (g, two) (methods d pcs)) by (destruct M as [->| ->]; cbn; auto).
  destruct (C86_points_of_each_position _ _ _ _ c rest Mf E NE) as (r0 & C & S & P). rewrite H in C. injection C as <-.
  rewrite E in S. destruct (C86_points_of_each_position _ _ _ _ r rest Mg S NE) as (r' & C' & S' & P'). exists r'. split; [exact C'|].
  split; [rewrite S', S, E; reflexivity|]. intros i j Wi Wj. rewrite (P' i j Wi Wj), (P i j Wi Wj). eapply inverse_points; eassumption.
Qed.
Theorem C86_round_trip_at_one_position : forall d pcs f one g two c cs p zs ks r, valid d -> (forall i, within (shape pcs) i -> pcz (at_ pcs i) <> 0%R) ->
  methods d pcs = [(f, one); (g, two)] \/ methods d pcs = [(g, two); (f, one)] ->
  shape c = points_shape cs -> cs <> [] -> names_positions (shape pcs) p (map At zs) ->
  Forall2 (fun nz k => counts_to (fst nz) (snd nz) k) (combine (shape pcs) zs) ks -> f c p = Some r ->
  exists r', g r p = Some r' /\ shape r' = shape c /\ forall j, within cs j -> point r' j = point c j.
Proof.
  intros d pcs f one g two c cs p zs ks r V Z M E NE NP K H.
  assert (Mf : In (f, one) (methods d pcs)) by (destruct M as [->| ->]; cbn; auto).
  assert (Mg : In (g, two) (methods d pcs)) by (destruct M as [->| ->]; cbn; auto).
  destruct (C86_one_position _ _ _ _ _ _ _ _ _ Mf E NE NP K) as (r0 & C & S & P). rewrite H in C. injection C as <-. rewrite E in S.
  destruct (C86_one_position _ _ _ _ r cs _ _ _ Mg S NE NP K) as (r' & C' & S' & P'). exists r'. split; [exact C'|].
  split; [rewrite S', S, E; reflexivity|]. intros j Wj. rewrite (P' j Wj), (P j Wj). eapply inverse_points; try eassumption.
  destruct (parse_some _ _ _ NP) as [_ [L _]]. rewrite map_length in L. clear - L K. revert zs ks L K.
  induction (shape pcs) as [|n s IH]; intros [|z zs] ks L K; cbn in L; try discriminate.
  - inversion K; subst. constructor.
  - cbn [combine] in K. inversion K as [|a k b ks' H1 H2]; subst. constructor; [apply H1|]. apply (IH zs); [congruence|exact H2].
Qed.

(** ** Where coordinates are not returned as documented *)
(** The same points are not returned for every position if the first axes of the array have the shape of the map. *)
Theorem C86_leading_axes_refuted : forall d pcs f one c rest r, In (f, one) (methods d pcs) -> shape pcs <> [] ->
  shape c = shape pcs ++ points_shape rest -> rest <> [] -> f c NoPos = Some r -> shape r <> shape pcs ++ shape c.
Proof.
  intros d pcs f one c rest r M NS E NE H. destruct (C86_points_of_each_position _ _ _ _ _ _ M E NE) as (r0 & C & S & _).
  rewrite H in C. injection C as <-. rewrite S. intros Q. apply (f_equal (@length nat)) in Q. rewrite app_length in Q.
  destruct (shape pcs); [congruence|cbn in Q; lia].
Qed.
(** One point for each position is not taken as such: every point is converted for every position. *)
Theorem C86_one_point_each_refuted : forall d pcs f one c, In (f, one) (methods d pcs) -> shape pcs <> [] ->
  shape c = points_shape (shape pcs) ->
  exists r, f c NoPos = Some r /\ shape r = shape pcs ++ shape c /\ shape r <> shape c /\
    forall i j, within (shape pcs) i -> within (shape pcs) j -> point r (i ++ j) = one (at_ pcs i) (point c j).
Proof.
  intros d pcs f one c M NS E. destruct (C86_same_points_for_every_position d pcs f one c (shape pcs) M E NS) as (r & C & S & P).
  - intros (rest & NE & Q). apply (f_equal (@length nat)) in Q. rewrite app_length in Q. destruct rest; [congruence|cbn in Q; lia].
  - exists r. split; [exact C|]. split; [exact S|]. split; [|exact P]. rewrite S. intros Q. apply (f_equal (@length nat)) in Q. rewrite app_length in Q.
    destruct (shape pcs); [congruence|cbn in Q; lia].
Qed.
(** With slices over a map, converting back does not give the shape of the converted array. *)
Theorem C86_round_trip_with_slices_refuted : forall d pcs f one g two c cs lo hi lo' hi' r, In (f, one) (methods d pcs) -> In (g, two) (methods d pcs) ->
  shape c = points_shape cs -> cs <> [] -> length (shape pcs) = 2 -> f c (Tuple [Slice lo hi; Slice lo' hi']) = Some r ->
  exists r', g r (Tuple [Slice lo hi; Slice lo' hi']) = Some r' /\ length (shape r') = length (shape r) + 2.
Proof.
  intros d pcs f one g two c cs lo hi lo' hi' r Mf Mg E NE L H. set (es := [Slice lo hi; Slice lo' hi']) in *.
  assert (R : in_range (shape pcs) es).
  { split; [subst es; cbn; congruence|]. intros j n z _ X. destruct j as [|[|[|]]]; discriminate. }
  assert (NP : names_positions (shape pcs) (Tuple es) es) by (right; split; [reflexivity|split; assumption]).
  destruct (C86_chosen_positions _ _ _ _ _ _ _ _ Mf E NE NP) as (r0 & C & S & _). rewrite H in C. injection C as <-.
  assert (S' : shape r = points_shape (selected_shape (shape pcs) es ++ cs)) by (rewrite S, E; unfold points_shape; apply app_assoc).
  assert (L2 : length (selected_shape (shape pcs) es) = 2).
  { subst es. destruct (shape pcs) as [|a [|b [|]]]; try discriminate L. reflexivity. }
  destruct (C86_chosen_positions _ _ _ _ r _ (Tuple es) es Mg S') as (r' & C' & Q & _); [destruct (selected_shape (shape pcs) es); discriminate|exact NP|].
  exists r'. split; [exact C'|]. rewrite Q, app_length, L2. lia.
Qed.

(** ** Formats *)
Theorem C86_formats : forall fmt, parse_coordinate_format fmt =
  if String.eqb fmt "detector" then Some ("pixel"%string, true)
  else if String.eqb fmt "pixel" || String.eqb fmt "gnomonic" then Some (fmt, false) else None.
Proof. intros fmt. unfold parse_coordinate_format. destruct (String.eqb fmt "detector"); reflexivity. Qed.

(** ** Cases *)
Definition camera : detector := Det 60 80 59.2 8 0 0 0 70 (PCArray [] []).
Definition centers : arr pc3 := Arr [2; 3] (fun i => PC (INR (nth 1 i 0)) (INR (nth 0 i 0)) 1).
Definition square : arr R := Arr [4; 2] (fun i => INR (nth 0 i 0 * 10 + nth 1 i 0)).
Example C86_case : valid camera /\ (forall i, within (shape centers) i -> pcz (at_ centers i) <> 0%R) /\
  shape square = points_shape [4] /\ ~ (exists rest, rest <> [] /\ [4] = shape centers ++ rest) /\
  names_positions (shape centers) (Tuple [At (-1); At 1]) (map At [-1; 1]%Z) /\
  Forall2 (fun nz k => counts_to (fst nz) (snd nz) k) (combine (shape centers) [-1; 1]%Z) [1; 1] /\
  names_positions (shape centers) (Tuple [Slice None (Some (-1)%Z); At 2]) [Slice None (Some (-1)%Z); At 2] /\
  selected_shape (shape centers) [Slice None (Some (-1)%Z); At 2] = [1] /\
  selects (shape centers) [Slice None (Some (-1)%Z); At 2] [0] [0; 2].
Proof.
  split; [unfold valid; cbn; repeat split; lia || lra|]. split; [intros; cbn; lra|]. split; [reflexivity|].
  split; [intros (rest & _ & Q); discriminate|].
  assert (IR : forall e e', (forall z, e = At z -> (-2 <= z < 2)%Z) -> (forall z, e' = At z -> (-3 <= z < 3)%Z) -> in_range [2; 3] [e; e']).
  { intros e e' H H'. split; [reflexivity|]. intros [|[|j]] n z Hn Hz; cbn in Hn, Hz; [| |destruct j; discriminate];
    injection Hn as <-; injection Hz as Hz; [apply H|apply H']; assumption. }
  split; [right; split; [reflexivity|split; [reflexivity|]]; apply IR; intros z Q; injection Q as <-; lia|].
  split; [repeat constructor; cbn; lia|].
  split; [right; split; [reflexivity|split; [reflexivity|]]; apply IR; intros z Q; [discriminate|injection Q as <-; lia]|].
  split; [reflexivity|]. cbn [shape centers]. constructor; [reflexivity|]. constructor; [split; lia|constructor].
Qed.
Print Assumptions C86_same_points_for_every_position.
Print Assumptions C86_round_trip.
Print Assumptions C86_chosen_positions.
Print Assumptions C86_accepted.
