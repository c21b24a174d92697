(** Merging crystal maps (properties C05 and C06). *)
From Coq Require Import String List Arith ZArith QArith Bool Lia Lqa Permutation.
From Verif Require Import Model.MergeMaps Spec.Merging Proofs.ListLemmas Proofs.MergeMapsProofs.
Import ListNotations.
Local Open Scope nat_scope.

(** ** Specification *)

Section Spec.
Context {A : Type}.

(** The mask given for map k; None: the map has all points. *)
Definition mask_of (masks : option (list (option (list bool)))) (k : nat) : option (list bool) :=
  match masks with None => None | Some ms => nth k ms None end.

(** Map number k has map point p, with rotations, scores, simulation indices and phase ID pt. *)
Definition has_point (maps : list (xmap A)) masks (k p : nat) (pt : point A) : Prop :=
  exists m, nth_error maps k = Some m /\ entry_at (mask_of masks k) (x_points m) p = Some pt.

(** At least two maps, as documented; all points have the same number (at least one) of scores and simulation indices. *)
Definition regular (per_point : nat) (maps : list (xmap A)) : Prop :=
  2 <= length maps /\ 1 <= per_point /\ forall m pt, In m maps -> In pt (x_points m) -> length (scores pt) = per_point /\ length (sims pt) = per_point.

(** Whether greater scores are better and how many are averaged, according to the documentation. *)
Definition greater (mean_n_best : Z) (greater_is_better : option bool) : bool :=
  match greater_is_better with Some b => b | None => (0 <=? mean_n_best)%Z end.
Definition averages (mean_n_best : Z) (greater_is_better : option bool) (n : nat) : Prop :=
  1 <= n /\ (mean_n_best = Z.of_nat n \/ (greater_is_better = None /\ mean_n_best = (- Z.of_nat n)%Z)).

(** No phase is called like the one for points that are not indexed. *)
Definition names_allowed (maps : list (xmap A)) : Prop :=
  forall m, In m maps -> ph_name (x_phase m) <> "not_indexed"%string.

(** Every map says that point p is not indexed. *)
Definition nowhere_indexed (maps : list (xmap A)) masks (p : nat) : Prop :=
  forall k pt, has_point maps masks k p pt -> pid pt = (-1)%Z.

(** pt, of map k, is the point with the best mean score, and that of no earlier map is as good. *)
Definition best_of (maps : list (xmap A)) masks n gr (p k : nat) (pt : point A) : Prop :=
  exists v, has_point maps masks k p pt /\ mean_of_first n (scores pt) v /\
    (forall k' pt' v', has_point maps masks k' p pt' -> mean_of_first n (scores pt') v' -> at_least_as_good gr v v') /\
    (forall k' pt' v', k' < k -> has_point maps masks k' p pt' -> mean_of_first n (scores pt') v' -> better gr v v').
End Spec.

(** ** Lemmas *)

Section Run.
Context {A : Type}.
Variables (str : nat -> string) (size per_point : nat) (maps : list (xmap A)) (mean : Z) (gib : option bool)
  (masks : option (list (option (list bool)))).

Lemma entry_at_none (pts : list (point A)) p : p < size -> entry_at (Some (repeat false size)) pts p = entry_at None pts p.
Proof using.
  intros Hp. unfold entry_at.
  assert (N : nth p (repeat false size) true = false).
  { rewrite (nth_indep _ true false) by (rewrite repeat_length; exact Hp). apply nth_repeat. }
  rewrite N. f_equal. clear N. revert p Hp. induction size as [|s IH]; intros p Hp; [lia|].
  destruct p as [|p]; [reflexivity|]. cbn. f_equal. apply IH. lia.
Qed.

Lemma expand_length mask (m : xmap A) rows : expand size mask m = Some rows -> length rows = size.
Proof using.
  unfold expand. destruct mask as [k|].
  - destruct (Nat.eqb_spec (length k) size) as [L|L]; [|discriminate]. intros H. rewrite (scatter_length _ _ _ H). exact L.
  - destruct (Nat.eqb_spec (length (x_points m)) size) as [L|L]; [|discriminate]. intros H. injection H as <-.
    rewrite map_length. exact L.
Qed.

Lemma tables_spec tables :
  match masks with Some ms => length ms = length maps | None => True end ->
  all_some (map (fun mm => expand size (fst mm) (snd mm)) (combine (masks1d size (length maps) masks) maps)) = Some tables ->
  length tables = length maps /\ Forall (fun t => length t = size) tables /\
  forall k m p, nth_error maps k = Some m -> p < size -> nth p (nth k tables []) None = entry_at (mask_of masks k) (x_points m) p.
Proof using.
  intros LM H.
  assert (LD : length (masks1d size (length maps) masks) = length maps).
  { destruct masks as [ms|]; cbn; [rewrite map_length; exact LM|apply repeat_length]. }
  assert (L : length tables = length maps).
  { rewrite (all_some_length _ _ H), map_length, combine_length, LD. lia. }
  split; [exact L|]. split.
  - apply Forall_forall. intros t I. apply In_nth_error in I. destruct I as [k N].
    pose proof (all_some_nth _ _ k H) as E. rewrite N in E. cbn in E.
    rewrite nth_error_map in E. destruct (nth_error (combine _ _) k) as [mm|]; [|discriminate]. cbn in E. injection E as E.
    eapply expand_length; exact E.
  - intros k m p N Hp.
    destruct (nth_error tables k) as [t|] eqn:NT.
    2:{ apply nth_error_None in NT. assert (k < length maps) by (apply nth_error_Some; congruence). lia. }
    rewrite (nth_error_nth _ _ _ NT).
    pose proof (all_some_nth _ _ k H) as E. rewrite NT in E. cbn in E.
    rewrite nth_error_map, nth_error_combine, N in E.
    unfold masks1d in E. unfold mask_of. destruct masks as [ms|].
    + rewrite nth_error_map in E. destruct (nth_error ms k) as [mk|] eqn:NM; [|discriminate].
      rewrite (nth_error_nth _ _ _ NM). cbn in E. destruct mk as [h|]; injection E as E.
      * apply (expand_at size (Some h) m t p E Hp).
      * assert (E' : expand size (Some (map negb (repeat false size))) m = Some t).
        { rewrite <- E. cbn [fst snd option_map]. assert (X : map negb (repeat false size) = repeat true size)
            by (clear; induction size as [|s IH]; [reflexivity|cbn; rewrite IH; reflexivity]).
          rewrite X. reflexivity. }
        rewrite <- entry_at_none by exact Hp. apply (expand_at size (Some (repeat false size)) m t p E' Hp).
    + assert (NR : nth_error (repeat (@None (list bool)) (length maps)) k = Some None).
      { assert (K : k < length maps) by (apply nth_error_Some; congruence). clear - K.
        revert k K. induction (length maps) as [|n IH]; intros k K; [lia|]. destruct k; [reflexivity|]. apply IH. lia. }
      rewrite NR in E. cbn in E. injection E as E. apply (expand_at size None m t p E Hp).
Qed.

Lemma entry_in (h : option (list bool)) (pts : list (point A)) p pt : entry_at h pts p = Some pt -> In pt pts.
Proof using.
  unfold entry_at. destruct h as [h|]; [destruct (nth p h true); [discriminate|]|]; apply nth_error_In.
Qed.

Lemma sign_number n : averages mean gib n ->
  sign_and_number mean gib = ((if greater mean gib then 1 else -1)%Z, Z.of_nat n).
Proof using.
  intros [N H]. unfold sign_and_number, greater. destruct gib as [[|]|].
  - destruct H as [->|[H _]]; [reflexivity|discriminate].
  - destruct H as [->|[H _]]; [reflexivity|discriminate].
  - destruct H as [->|[_ ->]].
    + destruct (Z.ltb_spec (Z.of_nat n) 0); [lia|]. destruct (Z.leb_spec 0 (Z.of_nat n)); [|lia]. f_equal. lia.
    + destruct (Z.ltb_spec (- Z.of_nat n) 0); [|lia]. destruct (Z.leb_spec 0 (- Z.of_nat n)); [lia|]. f_equal. lia.
Qed.

Lemma best_score_mean n (pt : point A) : 1 <= n -> 1 <= per_point -> length (scores pt) = per_point ->
  exists v, best_score per_point (Z.of_nat n) (Some pt) = Some v /\ mean_of_first n (scores pt) v.
Proof using.
  intros Hn Hp L. unfold best_score. destruct (Nat.ltb_spec 1 per_point) as [H|H].
  - unfold up_to. destruct (Z.ltb_spec (Z.of_nat n) 0) as [X|_]; [lia|]. rewrite Nat2Z.id.
    unfold mean_of_first. destruct (scores pt) as [|x l]; [cbn in L; lia|]. destruct n as [|n]; [lia|].
    cbn [firstn meanQ]. eexists. split; [reflexivity|]. split; [discriminate|].
    set (d := inject_Z (Z.of_nat (length (x :: firstn n l)))).
    assert (D : ~ (d == 0)%Q).
    { unfold d. change 0%Q with (inject_Z 0). rewrite inject_Z_injective. cbn [length]. lia. }
    unfold sumQ. field. exact D.
  - destruct (scores pt) as [|x [|y l]]; cbn in L; try lia. exists x. split; [reflexivity|].
    split; [discriminate|]. destruct n as [|n]; [lia|]. cbn [firstn]. rewrite firstn_nil. cbn. ring.
Qed.

Lemma mean_unique n l v v' : 1 <= n -> mean_of_first n l v -> mean_of_first n l v' -> (v == v')%Q.
Proof using.
  intros Hn [NE E] [_ E']. rewrite <- E' in E.
  apply (Qmult_inj_r _ _ (inject_Z (Z.of_nat (length (firstn n l))))); [|exact E].
  change 0%Q with (inject_Z 0). rewrite inject_Z_injective. destruct l as [|x l]; [congruence|]. destruct n; [lia|]. cbn [firstn length]. lia.
Qed.

Lemma sign_le (gr : bool) a b : (inject_Z (if gr then 1 else -1) * b <= inject_Z (if gr then 1 else -1) * a)%Q -> at_least_as_good gr a b.
Proof using. destruct gr; cbn; intros H; unfold inject_Z in H; cbn in *; lra. Qed.
Lemma sign_lt (gr : bool) a b : (inject_Z (if gr then 1 else -1) * b < inject_Z (if gr then 1 else -1) * a)%Q -> better gr a b.
Proof using. destruct gr; cbn; intros H; unfold inject_Z in H; cbn in *; lra. Qed.

Lemma best_in_several sign number (col : list (option (point A))) : 2 <= length col -> best_in sign per_point number col = nanargmax sign (map (best_score per_point number) col).
Proof using. intros H. destruct col as [|a [|b col]]; cbn in H; try lia. reflexivity. Qed.

(** Everything about a successful call. *)
Lemma run_all out n : regular per_point maps -> averages mean gib n -> names_allowed maps ->
  merge_crystal_maps str size per_point maps mean gib masks = Some out ->
  exists tables w st,
    length tables = length maps /\
    (forall k m p, nth_error maps k = Some m -> p < size -> nth p (nth k tables []) None = entry_at (mask_of masks k) (x_points m) p) /\
    length w = size /\
    (forall p, p < size ->
       let b := Z.to_nat (nth p w 0%Z) in
       (nth p w 0%Z = (-1)%Z /\ masks = None /\ maps <> [] /\ forall k m, nth_error maps k = Some m -> exists pt, nth_error (x_points m) p = Some pt /\ pid pt = (-1)%Z) \/
       ((0 <= nth p w 0)%Z /\ b < length maps /\ (exists pt, best_of maps masks n (greater mean gib) p b pt) /\
        (masks = None -> exists k m pt, nth_error maps k = Some m /\ nth_error (x_points m) p = Some pt /\ pid pt <> (-1)%Z))) /\
    steps str (St w (if existsb (Z.eqb (-1)) w then [((-1)%Z, not_indexed_phase)] else []) (repeat None size))
      (combine (seq 0 (length tables)) (combine maps tables)) = Some st /\
    inv size w tables (length tables) st /\
    m_phase_id out = st_id st /\ m_phases out = st_list st /\ m_points out = st_new st /\
    m_merged out = map (fun p => sort_best (if greater mean gib then 1 else -1)%Z
       (combine (interleave per_point scores (column tables p))
                (interleave per_point sims (column (map (fun it => map (option_map (shift_point (fst it))) (snd it)) (combine (increments maps) tables)) p))))
       (seq 0 size).
Proof using.
  intros REG AV NM. unfold merge_crystal_maps.
  destruct (match masks with Some ms => negb (length ms =? length maps) | None => false end) eqn:LMB; [discriminate|].
  assert (LM : match masks with Some ms => length ms = length maps | None => True end).
  { destruct masks; [|exact I]. apply negb_false_iff, Nat.eqb_eq in LMB. exact LMB. }
  rewrite (sign_number n AV). set (gr := greater mean gib).
  destruct (_ && _); [discriminate|].
  destruct (all_some (map (fun mm => expand size (fst mm) (snd mm)) _)) as [tables|] eqn:ET; [|discriminate].
  destruct (tables_spec tables LM ET) as [LT [FT AT]].
  destruct (all_some (map (fun p => best_in _ _ _ _) _)) as [best|] eqn:EB; [|discriminate].
  set (ni := fun p : nat => match masks with
            | Some _ => false
            | None => forallb (fun q => match q with Some pt => (pid pt =? -1)%Z | None => false end) (column tables p)
            end).
  set (w := map (fun pb => if ni (fst pb) then (-1)%Z else Z.of_nat (snd pb)) (combine (seq 0 size) best)).
  change (map (fun pb : nat * nat => if ni (fst pb) then (-1)%Z else Z.of_nat (snd pb)) (combine (seq 0 size) best)) with w.
  assert (LB : length best = size) by (rewrite (all_some_length _ _ EB), map_length, seq_length; reflexivity).
  assert (LW : length w = size) by (unfold w; rewrite map_length, combine_length, seq_length; lia).
  rewrite <- LT at 1.
  destruct (steps str _ _) as [st|] eqn:ES; [|discriminate].
  intros E. injection E as <-. cbn [m_phase_id m_phases m_points m_merged].
  assert (WAT : forall p, p < size -> exists b, nth_error best p = Some b /\ nth p w 0%Z = (if ni p then -1 else Z.of_nat b)%Z /\
     nanargmax (if gr then 1 else -1)%Z (map (best_score per_point (Z.of_nat n)) (column tables p)) = Some b).
  { intros p Hp. destruct (nth_error best p) as [b|] eqn:NB; [|apply nth_error_None in NB; lia].
    exists b. split; [reflexivity|]. split.
    - apply nth_error_nth. unfold w. rewrite nth_error_map, nth_error_combine, nth_error_seq, NB by exact Hp. reflexivity.
    - pose proof (all_some_nth _ _ p EB) as E. rewrite NB, nth_error_map, nth_error_seq in E by exact Hp. cbn in E.
      injection E as E. rewrite best_in_several in E; [exact E|]. unfold column. rewrite map_length, LT. apply REG. }
  assert (WB : Forall (fun k => (-1 <= k)%Z) w).
  { apply Forall_forall. intros x I. apply (In_nth _ _ 0%Z) in I. destruct I as [p [Hp <-]]. rewrite LW in Hp.
    destruct (WAT p Hp) as [b [_ [-> _]]]. destruct (ni p); lia. }
  assert (COL : forall p k, nth_error (column tables p) k = option_map (fun t => nth p t None) (nth_error tables k))
    by (intros; apply nth_error_map).
  assert (HAS : forall p k pt, p < size -> (nth_error (column tables p) k = Some (Some pt) <-> has_point maps masks k p pt)).
  { intros p k pt Hp. rewrite COL. split.
    - intros H. destruct (nth_error tables k) as [t|] eqn:NT; [|discriminate]. cbn in H. injection H as H.
      destruct (nth_error maps k) as [m|] eqn:NM'.
      + exists m. split; [exact NM'|]. rewrite <- (AT k m p NM' Hp). rewrite (nth_error_nth _ _ _ NT). exact H.
      + exfalso. apply nth_error_None in NM'. assert (k < length tables) by (apply nth_error_Some; congruence). lia.
    - intros [m [N E]]. rewrite <- (AT k m p N Hp) in E.
      destruct (nth_error tables k) as [t|] eqn:NT.
      + cbn. rewrite (nth_error_nth _ _ _ NT) in E. congruence.
      + apply nth_error_None in NT. assert (k < length maps) by (apply nth_error_Some; congruence). lia. }
  assert (SC : forall p k pt, p < size -> has_point maps masks k p pt ->
     exists v, nth_error (map (best_score per_point (Z.of_nat n)) (column tables p)) k = Some (Some v) /\ mean_of_first n (scores pt) v).
  { intros p k pt Hp HP. destruct HP as [m [N E]] eqn:X. clear X.
    destruct REG as [_ [R1 R2]]. destruct (R2 m pt (nth_error_In _ _ N) (entry_in _ _ _ _ E)) as [L1 _].
    destruct (best_score_mean n pt (proj1 AV) R1 L1) as [v [B M]]. exists v. split; [|exact M].
    rewrite nth_error_map. rewrite (proj2 (HAS p k pt Hp)) by (exists m; auto). cbn [option_map]. rewrite B. reflexivity. }
  exists tables, w, st. split; [exact LT|]. split; [exact AT|]. split; [exact LW|]. split; [|split; [|split]].
  - intros p Hp. destruct (WAT p Hp) as [b [NB [EW NA]]]. cbv zeta. rewrite EW.
    assert (BEST : b < length maps /\ exists pt, best_of maps masks n gr p b pt).
    { pose proof (nanargmax_spec (if gr then 1 else -1)%Z (map (best_score per_point (Z.of_nat n)) (column tables p))) as S.
      rewrite NA in S. destruct S as [x [NX [LE LTt]]]. rewrite nth_error_map in NX.
      destruct (nth_error (column tables p) b) as [[pt|]|] eqn:NC; try discriminate NX.
      assert (HP : has_point maps masks b p pt) by (apply HAS; assumption).
      split; [destruct HP as [m [N _]]; apply nth_error_Some; congruence|].
      exists pt. destruct (SC p b pt Hp HP) as [v [NV MV]].
      assert (EX : v = x).
      { rewrite nth_error_map, NC in NV. cbn [option_map] in NV, NX. congruence. }
      subst x. exists v. split; [exact HP|]. split; [exact MV|]. split.
      - intros k' pt' v' HP' MV'. destruct (SC p k' pt' Hp HP') as [v2 [NV2 MV2]].
        specialize (LE _ _ NV2). apply sign_le in LE.
        pose proof (mean_unique _ _ _ _ (proj1 AV) MV2 MV') as EQ. destruct gr; cbn in *; lra.
      - intros k' pt' v' KL HP' MV'. destruct (SC p k' pt' Hp HP') as [v2 [NV2 MV2]].
        specialize (LTt _ _ KL NV2). apply sign_lt in LTt.
        pose proof (mean_unique _ _ _ _ (proj1 AV) MV2 MV') as EQ. destruct gr; cbn in *; lra. }
    destruct (ni p) eqn:NI.
    + left. split; [reflexivity|]. unfold ni in NI. destruct masks as [ms|] eqn:MS; [discriminate|]. split; [reflexivity|].
      split; [intros ->; cbn in BEST; lia|]. intros k m N. rewrite forallb_forall in NI.
      assert (KL : k < length tables) by (rewrite LT; apply nth_error_Some; congruence).
      specialize (NI (nth p (nth k tables []) None)).
      assert (IN : In (nth p (nth k tables []) None) (column tables p)).
      { unfold column. apply (in_map (fun t => nth p t None)). apply nth_In. exact KL. }
      specialize (NI IN). rewrite (AT k m p N Hp) in NI. cbn [mask_of entry_at] in NI.
      destruct (nth_error (x_points m) p) as [pt|]; [|discriminate]. exists pt. split; [reflexivity|].
      apply Z.eqb_eq. exact NI.
    + right. rewrite Nat2Z.id. split; [lia|]. split; [apply BEST|]. split; [apply BEST|].
      intros MN. unfold ni in NI. rewrite MN in NI.
      assert (EXI : exists q, In q (column tables p) /\ (match q with Some pt => (pid pt =? -1)%Z | None => false end) = false).
      { clear - NI. induction (column tables p) as [|q l IH]; [discriminate|]. cbn in NI.
        destruct (match q with Some pt => (pid pt =? -1)%Z | None => false end) eqn:E.
        - destruct (IH NI) as [q' [I' E']]. exists q'. split; [right; exact I'|exact E'].
        - exists q. split; [left; reflexivity|exact E]. }
      destruct EXI as [q [IQ EQ]]. apply In_nth_error in IQ. destruct IQ as [k NK].
      rewrite COL in NK. destruct (nth_error tables k) as [t|] eqn:NT; [|discriminate]. cbn in NK. injection NK as NK.
      destruct (nth_error maps k) as [m|] eqn:NM'.
      2:{ apply nth_error_None in NM'. assert (k < length tables) by (apply nth_error_Some; congruence). lia. }
      pose proof (AT k m p NM' Hp) as EA. rewrite (nth_error_nth _ _ _ NT), NK, MN in EA. cbn [mask_of entry_at] in EA.
      assert (Q : exists pt, q = Some pt).
      { destruct q as [pt|]; [eauto|]. exfalso. symmetry in EA. apply nth_error_None in EA.
        rewrite MN in ET. pose proof (all_some_nth _ _ k ET) as E1. rewrite NT in E1. cbn in E1.
        rewrite nth_error_map, nth_error_combine, NM' in E1. unfold masks1d in E1.
        destruct (nth_error (repeat None (length maps)) k) as [mk|] eqn:NR; [|discriminate].
        apply nth_error_In, repeat_spec in NR. subst mk. cbn in E1.
        destruct (Nat.eqb_spec (length (x_points m)) size); [lia|discriminate]. }
      destruct Q as [pt ->]. exists k, m, pt. split; [exact NM'|]. split; [symmetry; exact EA|].
      apply Z.eqb_neq. exact EQ.
  - exact ES.
  - apply (steps_inv str size w tables LW FT WB maps tables 0 (St w (if existsb (Z.eqb (-1)) w then [((-1)%Z, not_indexed_phase)] else []) (repeat None size)) st);
      try (intros; assumption); try lia; try exact NM; try exact ES.
    unfold inv. cbn [st_id st_new st_list]. split; [exact LW|]. split; [apply repeat_length|]. split.
    { destruct (existsb _ w); constructor; [|constructor]. cbn. split; [lia|reflexivity]. }
    intros p Hp. cbv zeta. rewrite nth_repeat. repeat split; intros; try lia; congruence.
  - auto.
Qed.
End Run.

(** ** C05: every point gets the phase that fits best *)

Section C05.
Context {A : Type}.
Variables (str : nat -> string) (size per_point : nat) (maps : list (xmap A)) (mean : Z) (gib : option bool)
  (masks : option (list (option (list bool)))).

(** If merging succeeds, every point either is marked not indexed, with nothing but zeros (None), because no
    masks were given and all maps say so; or gets rotations, scores and indices of the first map of those that
    have the best mean score at the point among all maps that have the point. *)
Theorem C05_best_map out n : regular per_point maps -> averages mean gib n -> names_allowed maps ->
  merge_crystal_maps str size per_point maps mean gib masks = Some out ->
  length (m_points out) = size /\ length (m_phase_id out) = size /\
  forall p, p < size ->
    (nth p (m_phase_id out) 0%Z = (-1)%Z /\ nth p (m_points out) None = None /\ masks = None /\ maps <> [] /\ nowhere_indexed maps masks p) \/
    ((0 <= nth p (m_phase_id out) 0)%Z /\
     exists k pt, best_of maps masks n (greater mean gib) p k pt /\ nth p (m_points out) None = Some pt).
Proof using.
  intros REG AV NM H. destruct (run_all str size per_point maps mean gib masks out n REG AV NM H)
    as [tables [w [st [LT [AT [LW [PT [ES [INV [E1 [E2 [E3 E4]]]]]]]]]]]].
  destruct INV as [L1 [L2 [_ PTS]]]. rewrite E1, E3. split; [exact L2|]. split; [exact L1|].
  intros p Hp. specialize (PTS p Hp). cbv zeta in PTS. destruct PTS as [P1 [_ P3]]. specialize (PT p Hp). cbv zeta in PT.
  destruct PT as [[W [MN [NE ALL]]]|[W [B [[pt BO] _]]]].
  - left. destruct (P1 W) as [Q1 Q2]. split; [exact Q1|]. split; [exact Q2|]. split; [exact MN|]. split; [exact NE|].
    intros k pt [m [N E]]. subst masks. cbn [mask_of entry_at] in E. destruct (ALL k m N) as [pt' [E' I']]. congruence.
  - right. destruct P3 as [Q1 Q2]; [rewrite LT; lia|]. split; [apply Q1|].
    exists (Z.to_nat (nth p w 0%Z)), pt. split; [exact BO|]. rewrite Q2.
    destruct BO as [v [[m [N E]] _]]. rewrite (AT _ m p N Hp). exact E.
Qed.

(** Without masks, the points marked not indexed are exactly those not indexed in any map. *)
Theorem C05_not_indexed_without_masks out n : masks = None -> maps <> [] -> regular per_point maps -> averages mean gib n ->
  names_allowed maps -> (forall m, In m maps -> length (x_points m) = size) ->
  merge_crystal_maps str size per_point maps mean gib masks = Some out ->
  forall p, p < size -> (nth p (m_phase_id out) 0%Z = (-1)%Z <-> nowhere_indexed maps masks p).
Proof using.
  intros MN NE REG AV NM LP H p Hp. destruct (run_all str size per_point maps mean gib masks out n REG AV NM H)
    as [tables [w [st [LT [AT [LW [PT [ES [INV [E1 [E2 [E3 E4]]]]]]]]]]]].
  destruct INV as [L1 [L2 [_ PTS]]]. rewrite E1. specialize (PTS p Hp). cbv zeta in PTS. destruct PTS as [P1 [_ P3]].
  specialize (PT p Hp). cbv zeta in PT.
  destruct PT as [[W [_ [_ ALL]]]|[W [B [_ EX]]]].
  - destruct (P1 W) as [Q1 _]. split; [|intros _; exact Q1]. intros _ k pt [m [N E]]. subst masks.
    destruct (ALL k m N) as [pt' [E' I']]. cbn in E. congruence.
  - destruct P3 as [Q1 _]; [rewrite LT; lia|]. split; [lia|]. intros NI. exfalso.
    destruct (EX MN) as [k [m [pt [N [E I]]]]]. apply I. apply (NI k pt). exists m. subst masks. auto.
Qed.

(** The code differs with masks: a point is never marked not indexed, not even if no map has it indexed. *)
Theorem C05_not_indexed_with_masks_refuted out n ms : masks = Some ms -> regular per_point maps -> averages mean gib n ->
  names_allowed maps -> merge_crystal_maps str size per_point maps mean gib masks = Some out ->
  forall p, p < size -> (0 <= nth p (m_phase_id out) 0)%Z.
Proof using.
  intros MS REG AV NM H p Hp. destruct (C05_best_map out n REG AV NM H) as [_ [_ PT]].
  destruct (PT p Hp) as [[_ [_ [MN _]]]|[W _]]; [congruence|exact W].
Qed.

(** Nor can maps be merged when some point is in none of them. *)
Theorem C05_uncovered_point_refuted p : p < size -> (forall k pt, ~ has_point maps masks k p pt) ->
  merge_crystal_maps str size per_point maps mean gib masks = None.
Proof using.
  intros Hp NO. unfold merge_crystal_maps.
  destruct (match masks with Some ms => negb (length ms =? length maps) | None => false end) eqn:LMB; [reflexivity|].
  assert (LM : match masks with Some ms => length ms = length maps | None => True end).
  { destruct masks; [|exact I]. apply negb_false_iff, Nat.eqb_eq in LMB. exact LMB. }
  destruct (sign_and_number mean gib) as [sign number]. destruct (_ && _); [reflexivity|].
  destruct (all_some (map (fun mm => expand size (fst mm) (snd mm)) _)) as [tables|] eqn:ET; [|reflexivity].
  destruct (tables_spec size maps masks tables LM ET) as [LT [FT AT]].
  assert (X : all_some (map (fun q => best_in sign per_point number (column tables q)) (seq 0 size)) = None).
  { apply all_some_none. apply in_map_iff. exists p. split; [|apply in_seq; lia].
    assert (BN : nanargmax sign (map (best_score per_point number) (column tables p)) = None -> (forall k pt, nth_error (column tables p) k <> Some (Some pt)) -> best_in sign per_point number (column tables p) = None).
    { intros B1 B2. unfold best_in. destruct (column tables p) as [|q [|q' l]]; [exact B1| |exact B1]. destruct (1 <? per_point); [|exact B1]. destruct q as [pt|]; [|reflexivity]. exfalso. apply (B2 0 pt). reflexivity. }
    assert (NC : forall k pt, nth_error (column tables p) k <> Some (Some pt)).
    { intros i pt N. unfold column in N. rewrite nth_error_map in N. destruct (nth_error tables i) as [t|] eqn:NT; [|discriminate]. cbn in N. injection N as NP.
      destruct (nth_error maps i) as [m|] eqn:NM.
      - apply (NO i pt). exists m. split; [exact NM|]. rewrite <- (AT i m p NM Hp), (nth_error_nth _ _ _ NT). exact NP.
      - apply nth_error_None in NM. assert (i < length tables) by (apply nth_error_Some; congruence). lia. }
    apply BN; [|exact NC].
    pose proof (nanargmax_spec sign (map (best_score per_point number) (column tables p))) as S.
    destruct (nanargmax _ _) as [i|]; [|reflexivity]. destruct S as [x [N _]]. exfalso.
    rewrite nth_error_map in N. unfold column in N. rewrite nth_error_map in N.
    destruct (nth_error tables i) as [t|] eqn:NT; [|discriminate]. cbn in N. injection N as N.
    destruct (nth p t None) as [pt|] eqn:NP; [|discriminate].
    destruct (nth_error maps i) as [m|] eqn:NM.
    - apply (NO i pt). exists m. split; [exact NM|]. rewrite <- (AT i m p NM Hp), (nth_error_nth _ _ _ NT). exact NP.
    - apply nth_error_None in NM. assert (i < length tables) by (apply nth_error_Some; congruence). lia. }
  rewrite X. reflexivity.
Qed.

(** Nor maps of a single point with several scores. *)
Theorem C05_single_point_refuted : size = 1 -> 1 < per_point -> merge_crystal_maps str size per_point maps mean gib masks = None.
Proof using.
  intros -> H. unfold merge_crystal_maps. destruct (match masks with Some ms => negb (length ms =? length maps) | None => false end); [reflexivity|].
  destruct (sign_and_number mean gib) as [sign number]. destruct (Nat.ltb_spec 1 per_point); [|lia]. reflexivity.
Qed.

(** A single map with several scores per point, which the documentation excludes but the code does not: an error if one score is
    compared (the default) ... *)
Theorem C05_single_map_default_refuted m : maps = [m] -> masks = None -> 1 < per_point -> 1 <= size -> (forall pt, In pt (x_points m) -> length (scores pt) = per_point) ->
  averages mean gib 1 -> merge_crystal_maps str size per_point maps mean gib masks = None.
Proof using.
  intros -> -> PP SZ LS AV. unfold merge_crystal_maps. rewrite (sign_number _ _ 1 AV). destruct (_ && _); [reflexivity|]. cbn [length masks1d repeat combine map expand fst snd].
  destruct (Nat.eqb_spec (length (x_points m)) size) as [L|]; [|reflexivity]. cbn [all_some].
  match goal with |- context [all_some ?l] => assert (X : all_some l = None) end; [|rewrite X; reflexivity].
  apply all_some_none, in_map_iff. exists 0. split; [|apply in_seq; lia]. destruct (x_points m) as [|pt l] eqn:E; [cbn in L; lia|]. cbn [map column nth best_in].
  destruct (Nat.ltb_spec 1 per_point); [|lia]. specialize (LS pt (or_introl eq_refl)). destruct (scores pt) as [|a [|b sc]]; cbn in LS; try lia. reflexivity.
Qed.
(** ... and if more are compared, points of which a later one of them is better than the first lose their rotations and scores and
    have the number of this score as phase ID. *)
Theorem C05_single_map_refuted m out n p pt j s0 s : maps = [m] -> masks = None -> 1 < per_point -> (forall pt, In pt (x_points m) -> length (scores pt) = per_point) ->
  averages mean gib n -> 2 <= n -> names_allowed maps -> merge_crystal_maps str size per_point maps mean gib masks = Some out ->
  nth_error (x_points m) p = Some pt -> pid pt <> (-1)%Z -> j < n -> nth_error (scores pt) 0 = Some s0 -> nth_error (scores pt) j = Some s -> better (greater mean gib) s s0 ->
  nth p (m_points out) None = None /\ (1 <= nth p (m_phase_id out) 0)%Z.
Proof using.
  intros -> -> PP LS AV N2 NM H Np PI J S0 Sj B. unfold merge_crystal_maps in H. rewrite (sign_number _ _ n AV) in H. destruct (_ && _); [discriminate|]. cbn [length masks1d repeat combine map expand fst snd] in H.
  destruct (Nat.eqb_spec (length (x_points m)) size) as [L|]; [|discriminate]. cbn [all_some] in H. set (tables := [map Some (x_points m)]) in *.
  destruct (all_some (map (fun p => best_in _ _ _ _) _)) as [best|] eqn:EB; [|discriminate].
  assert (Hp : p < size) by (rewrite <- L; apply nth_error_Some; congruence).
  assert (COL : column tables p = [Some pt]). { unfold column, tables. cbn [map]. rewrite nth_map_some, Np. reflexivity. }
  assert (NB : exists b, nth_error best p = Some b /\ 1 <= b).
  { pose proof (all_some_nth _ _ p EB) as E. rewrite nth_error_map, nth_error_seq in E by exact Hp. cbn [option_map] in E. change (0 + p) with p in E. rewrite COL in E. cbn [best_in] in E.
    destruct (Nat.ltb_spec 1 per_point); [|lia]. specialize (LS pt (nth_error_In _ _ Np)).
    assert (U : up_to (Z.of_nat n) (scores pt) = firstn n (scores pt)). { unfold up_to. destruct (Z.ltb_spec (Z.of_nat n) 0); [lia|]. rewrite Nat2Z.id. reflexivity. }
    rewrite U in E. pose proof (nanargmax_spec (if greater mean gib then 1 else -1)%Z (map Some (firstn n (scores pt)))) as SP.
    destruct (scores pt) as [|a [|b sc]]; cbn in LS; try lia. destruct n as [|[|n']]; try lia. cbn [firstn] in E, SP. cbn [map] in E.
    destruct (nth_error best p) as [k|]; [|discriminate E].
    cbn [option_map] in E. injection E as E. exists k. split; [reflexivity|]. cbn [map] in SP. rewrite E in SP. destruct SP as (x & NX & LE & _). destruct k as [|k]; [|lia]. exfalso.
    cbn in NX, S0. injection NX as <-. injection S0 as <-.
    assert (NJ : nth_error (Some a :: Some b :: map Some (firstn n' sc)) j = Some (Some s)).
    { change (Some a :: Some b :: map Some (firstn n' sc)) with (map Some (firstn (S (S n')) (a :: b :: sc))). rewrite nth_error_map.
      assert (F : forall (l : list Q) n j, j < n -> nth_error (firstn n l) j = nth_error l j). { clear. intros l n. revert l. induction n as [|n IH]; intros l j Hj; [lia|]. destruct l, j; try reflexivity. cbn. apply IH. lia. }
      rewrite F, Sj by exact J. reflexivity. }
    specialize (LE _ _ NJ). apply sign_le in LE. destruct (greater mean gib); cbn in LE, B; lra. }
  destruct NB as (b & NB & B1).
  destruct (steps str _ _) as [st|] eqn:ES; [|discriminate]. injection H as <-. cbn [m_points m_phase_id].
  set (w := map _ (combine (seq 0 size) best)) in ES. assert (LB : length best = size) by (rewrite (all_some_length _ _ EB), map_length, seq_length; reflexivity).
  assert (LW : length w = size) by (unfold w; rewrite map_length, combine_length, seq_length; lia).
  assert (W : nth p w 0%Z = Z.of_nat b).
  { unfold w. apply nth_error_nth. rewrite nth_error_map, nth_error_combine, nth_error_seq, NB by exact Hp. cbn [option_map fst snd]. change (0 + p) with p. rewrite COL. cbn [forallb]. destruct (Z.eqb_spec (pid pt) (-1)); [contradiction|]. reflexivity. }
  cbn [seq combine steps] in ES. unfold tables in ES. cbn [combine steps] in ES. destruct (step str _ _) as [st1|] eqn:E1; [|discriminate]. injection ES as <-. unfold step in E1. cbn [st_id st_list st_new] in E1.
  destruct (existsb (fun b => b) _).
  - destruct (phase_in_data m) as [ph|] eqn:PH; [|discriminate].
    assert (PN : ph_name ph <> "not_indexed"%string). { unfold phase_in_data in PH. destruct (existsb _ _); [|discriminate]. injection PH as <-. apply NM. now left. }
    match type of E1 with context [find_name (ph_name ph) ?l] => assert (FN : find_name (ph_name ph) l = None) end.
    { destruct (existsb _ w); [|reflexivity]. unfold find_name. cbn [find snd not_indexed_phase ph_name]. destruct (String.eqb_spec "not_indexed" (ph_name ph)) as [E|E]; [exfalso; apply PN; symmetry; exact E|reflexivity]. }
    rewrite FN in E1. injection E1 as <-. cbn [st_new st_id]. rewrite W. split; [|lia].
    rewrite (nth_choose size); [|rewrite map_length; exact LW|apply repeat_length|rewrite map_length; exact L|exact Hp].
    rewrite (nth_error_nth (map _ w) p false (map_nth_error _ _ _ (nth_error_nth' w 0%Z (eq_ind_r (fun k => p < k) Hp LW)))). rewrite W. destruct (Z.eqb_spec (Z.of_nat b) 0); [lia|]. apply nth_repeat.
  - injection E1 as <-. cbn [st_new st_id]. rewrite W, nth_repeat. split; [reflexivity|lia].
Qed.
End C05.

(** orix pairs the phase IDs in the data, sorted, with the phases in the list, in order: the phase of ID k is
    the one at the position given by the number of smaller IDs in the data. *)
Definition phase_of_id (ids : list Z) (phases : phase_list) (k : Z) : option phase :=
  nth_error (map snd phases) (length (nodup Z.eq_dec (filter (fun i => (i <? k)%Z) ids))).

Lemma used_iff w i : used w i = true <-> In (Z.of_nat i) w.
Proof.
  unfold used. rewrite existsb_exists. split.
  - intros [k [I E]]. apply Z.eqb_eq in E. subst. exact I.
  - intros I. exists (Z.of_nat i). split; [exact I|apply Z.eqb_refl].
Qed.

Lemma rank_count w k : Forall (fun i => (-1 <= i)%Z) w ->
  length (nodup Z.eq_dec (filter (fun i => (i <? Z.of_nat k)%Z) w)) =
  (if existsb (Z.eqb (-1)) w then 1 else 0) + length (filter (used w) (seq 0 k)).
Proof.
  intros F.
  transitivity (length ((if existsb (Z.eqb (-1)) w then [(-1)%Z] else []) ++ map Z.of_nat (filter (used w) (seq 0 k)))).
  2:{ rewrite app_length, map_length. destruct (existsb _ w); reflexivity. }
  apply Permutation_length. apply NoDup_Permutation.
  - apply NoDup_nodup.
  - assert (N : NoDup (map Z.of_nat (filter (used w) (seq 0 k)))).
    { apply FinFun.Injective_map_NoDup; [intros a b; apply Nat2Z.inj|]. apply NoDup_filter, seq_NoDup. }
    destruct (existsb _ w); [|exact N]. constructor; [|exact N]. intros I. apply in_map_iff in I. destruct I as [x [E _]]. lia.
  - intros x. rewrite nodup_In, filter_In, in_app_iff, in_map_iff. rewrite Forall_forall in F. split.
    + intros [I L]. apply Z.ltb_lt in L. pose proof (F x I) as B. destruct (Z.eq_dec x (-1)) as [->|NE].
      * left. assert (E : existsb (Z.eqb (-1)) w = true) by (apply existsb_exists; exists (-1)%Z; split; [exact I|reflexivity]).
        rewrite E. left. reflexivity.
      * right. exists (Z.to_nat x). split; [lia|]. apply filter_In. split; [apply in_seq; lia|]. apply used_iff. rewrite Z2Nat.id by lia. exact I.
    + intros [I|[i [E I]]].
      * destruct (existsb (Z.eqb (-1)) w) eqn:EX; [|destruct I]. destruct I as [<-|[]]. apply existsb_exists in EX.
        destruct EX as [y [IY EY]]. apply Z.eqb_eq in EY. subst y. split; [exact IY|]. apply Z.ltb_lt. lia.
      * apply filter_In in I. destruct I as [I U]. apply in_seq in I. apply used_iff in U. subst x. split; [exact U|]. apply Z.ltb_lt. lia.
Qed.

Lemma filter_position {B} (u : nat -> bool) (l : list B) : forall i k b, nth_error l k = Some b -> u (i + k) = true ->
  nth_error (filter (fun ib => u (fst ib)) (combine (seq i (length l)) l)) (length (filter u (seq i k))) = Some (i + k, b).
Proof.
  induction l as [|x l IH]; intros i k b N U; [destruct k; discriminate|]. cbn [length seq combine filter fst].
  destruct k as [|k].
  - rewrite Nat.add_0_r in *. rewrite U. cbn in *. congruence.
  - cbn [seq filter]. cbn in N. specialize (IH (S i) k b N). replace (S i + k) with (i + S k) in IH by lia. specialize (IH U).
    destruct (u i); exact IH.
Qed.

(** The phase of every indexed point is that of the map its rotations were taken from. Missing: maps that
    share a phase name (see C05_repeated_phase_refuted). *)
Theorem C05_phase_of_point_partial {A} str size per_point (maps : list (xmap A)) mean gib masks out n :
  regular per_point maps -> averages mean gib n -> names_allowed maps -> NoDup (map (fun m => ph_name (x_phase m)) maps) ->
  merge_crystal_maps str size per_point maps mean gib masks = Some out ->
  forall p, p < size -> (0 <= nth p (m_phase_id out) 0)%Z ->
  exists k m pt, nth_error maps k = Some m /\ best_of maps masks n (greater mean gib) p k pt /\ nth p (m_points out) None = Some pt /\
    phase_of_id (m_phase_id out) (m_phases out) (nth p (m_phase_id out) 0%Z) = Some (x_phase m).
Proof.
  intros REG AV NM ND H p Hp HI. destruct (run_all str size per_point maps mean gib masks out n REG AV NM H)
    as [tables [w [st [LT [AT [LW [PT [ES [INV [E1 [E2 [E3 E4]]]]]]]]]]]].
  pose proof ES as ES'. eapply steps_names in ES'; [|reflexivity|symmetry; exact LT|exact ND|].
  2:{ intros m I IN. cbn [st_list] in IN. destruct (existsb _ w); [|destruct IN]. destruct IN as [E|[]]. cbn in E. apply (NM m I). symmetry. exact E. }
  cbn [st_id st_list] in ES'. destruct ES' as [SI SL].
  destruct INV as [_ [_ [_ PTS]]]. specialize (PTS p Hp). cbv zeta in PTS. destruct PTS as [P1 [_ P3]].
  assert (WF : Forall (fun i => (-1 <= i)%Z) w).
  { apply Forall_forall. intros x I. apply (In_nth _ _ 0%Z) in I. destruct I as [q [Hq <-]]. rewrite LW in Hq. specialize (PT q Hq). cbv zeta in PT. lia. }
  specialize (PT p Hp). cbv zeta in PT. rewrite E1, SI in HI |- *. rewrite E2, E3.
  destruct PT as [[W _]|[W [B [[pt BO] _]]]]; [lia|].
  destruct P3 as [_ Q2]; [rewrite LT; lia|].
  set (k := Z.to_nat (nth p w 0%Z)) in *. assert (EK : nth p w 0%Z = Z.of_nat k) by (unfold k; lia).
  destruct BO as [v BO]. pose proof BO as [[m [N E]] _].
  exists k, m, pt. split; [exact N|]. split; [exists v; exact BO|]. split; [rewrite Q2, (AT _ m p N Hp); exact E|].
  unfold phase_of_id. rewrite SL, EK, rank_count by exact WF.
  assert (NH : forall (X : list phase), nth_error (map snd (if existsb (Z.eqb (-1)) w then [((-1)%Z, not_indexed_phase)] else []) ++ X)
     ((if existsb (Z.eqb (-1)) w then 1 else 0) + length (filter (used w) (seq 0 k))) = nth_error X (length (filter (used w) (seq 0 k)))).
  { intros X. destruct (existsb _ w); reflexivity. }
  rewrite NH, nth_error_map. rewrite LT. rewrite (filter_position (used w) maps 0 k m N); [reflexivity|].
  apply used_iff. cbn. rewrite <- EK. apply nth_In. lia.
Qed.

(** The phases in the list have different names. *)
Theorem C05_phase_names_differ {A} str size per_point (maps : list (xmap A)) mean gib masks out :
  merge_crystal_maps str size per_point maps mean gib masks = Some out -> NoDup (map (fun e => ph_name (snd e)) (m_phases out)).
Proof.
  unfold merge_crystal_maps. destruct (match masks with Some ms => _ | None => _ end); [discriminate|]. destruct (sign_and_number mean gib) as [sign number].
  destruct (_ && _); [discriminate|]. destruct (all_some (map (fun mm => expand size (fst mm) (snd mm)) _)) as [tables|]; [|discriminate].
  destruct (all_some _) as [best|]; [|discriminate]. destruct (steps str _ _) as [st|] eqn:S; [|discriminate].
  intros E. injection E as <-. cbn [m_phases]. eapply steps_names_distinct; [|exact S]. cbn [st_list].
  destruct (existsb _ _); cbn; [constructor; [intros []|constructor]|constructor].
Qed.

(** Different phases with the same name: the phase of every indexed point is that of the map its rotations were taken
    from, perhaps renamed by the number of the map. *)
Theorem C05_renamed_phase_of_point_partial {A} str size per_point (maps : list (xmap A)) mean gib masks out n :
  regular per_point maps -> averages mean gib n -> names_allowed maps -> NoDup (map x_phase maps) ->
  (forall m m' k, In m maps -> In m' maps -> ph_name (x_phase m') <> (ph_name (x_phase m) ++ str k)%string) ->
  merge_crystal_maps str size per_point maps mean gib masks = Some out ->
  forall p, p < size -> (0 <= nth p (m_phase_id out) 0)%Z ->
  exists k m pt ph, nth_error maps k = Some m /\ best_of maps masks n (greater mean gib) p k pt /\ nth p (m_points out) None = Some pt /\
    phase_of_id (m_phase_id out) (m_phases out) (nth p (m_phase_id out) 0%Z) = Some ph /\
    ph_content ph = ph_content (x_phase m) /\ (ph_name ph = ph_name (x_phase m) \/ ph_name ph = (ph_name (x_phase m) ++ str k)%string).
Proof.
  intros REG AV NM ND NS H p Hp HI. destruct (run_all str size per_point maps mean gib masks out n REG AV NM H)
    as [tables [w [st [LT [AT [LW [PT [ES [INV [E1 [E2 [E3 E4]]]]]]]]]]]].
  pose proof ES as ES'. eapply steps_renamed in ES'; [|reflexivity|symmetry; exact LT|exact ND|exact NS|].
  2:{ intros m e I IN NE. cbn [st_list] in IN. destruct (existsb _ w); [|destruct IN]. destruct IN as [E|[]]. subst e. exfalso. apply (NM m I). symmetry. exact NE. }
  cbn [st_id st_list] in ES'. destruct ES' as [SI [new [SL F2]]].
  destruct INV as [_ [_ [_ PTS]]]. specialize (PTS p Hp). cbv zeta in PTS. destruct PTS as [P1 [_ P3]].
  assert (WF : Forall (fun i => (-1 <= i)%Z) w).
  { apply Forall_forall. intros x I. apply (In_nth _ _ 0%Z) in I. destruct I as [q [Hq <-]]. rewrite LW in Hq. specialize (PT q Hq). cbv zeta in PT. lia. }
  specialize (PT p Hp). cbv zeta in PT. rewrite E1, SI in HI |- *. rewrite E2, E3.
  destruct PT as [[W _]|[W [B [[pt BO] _]]]]; [lia|].
  destruct P3 as [_ Q2]; [rewrite LT; lia|].
  set (k := Z.to_nat (nth p w 0%Z)) in *. assert (EK : nth p w 0%Z = Z.of_nat k) by (unfold k; lia).
  destruct BO as [v BO]. pose proof BO as [[m [N E]] _].
  assert (NH : forall (X : list phase), nth_error (map snd (if existsb (Z.eqb (-1)) w then [((-1)%Z, not_indexed_phase)] else []) ++ X)
     ((if existsb (Z.eqb (-1)) w then 1 else 0) + length (filter (used w) (seq 0 k))) = nth_error X (length (filter (used w) (seq 0 k)))).
  { intros X. destruct (existsb _ w); reflexivity. }
  assert (FP : nth_error (filter (fun im => used w (fst im)) (combine (seq 0 (length tables)) maps)) (length (filter (used w) (seq 0 k))) = Some (k, m)).
  { rewrite LT. apply (filter_position (used w) maps 0 k m N). apply used_iff. cbn. rewrite <- EK. apply nth_In. lia. }
  assert (GET : forall (l : list phase) (l' : list (nat * xmap A)) j y, Forall2 (labelled str) l l' -> nth_error l' j = Some y -> exists x, nth_error l j = Some x /\ labelled str x y).
  { clear. intros l l' j y F. revert j. induction F as [|a b l l' Hab F IH]; intros [|j] Hj; try discriminate; cbn in *.
    - injection Hj as <-. eauto.
    - apply IH, Hj. }
  destruct (GET _ _ _ _ F2 FP) as [ph [NP [C L]]].
  exists k, m, pt, ph. split; [exact N|]. split; [exists v; exact BO|]. split; [rewrite Q2, (AT _ m p N Hp); exact E|].
  split; [|split; [exact C|exact L]].
  unfold phase_of_id. rewrite SL, EK, rank_count by exact WF. rewrite NH. exact NP.
Qed.

(** ** C06: merged scores and simulation indices *)

(** What a point should list, given the numbers added to the indices of each map: all scores and indices of
    the maps that have the point, and empty entries for the others. *)
Definition expected {A} per_point (maps : list (xmap A)) masks (incs : list Z) (p : nat) : list (option Q * option Z) :=
  flat_map (fun kmi : nat * (xmap A * Z) =>
    match entry_at (mask_of masks (fst kmi)) (x_points (fst (snd kmi))) p with
    | None => repeat (None, None) per_point
    | Some pt => combine (map Some (scores pt)) (map (fun i => Some (i + snd (snd kmi))%Z) (sims pt))
    end) (combine (seq 0 (length maps)) (combine maps incs)).

Lemma map_nth_seq {B C} (l : list B) (g : option B -> C) : map (fun j => g (nth_error l j)) (seq 0 (length l)) = map (fun b => g (Some b)) l.
Proof.
  induction l as [|b l IH]; [reflexivity|]. cbn [length seq map nth_error]. f_equal. rewrite <- seq_shift, map_map. exact IH.
Qed.

(** Some numbers are added to the indices of each map, so that no two maps share an index, those of later maps
    being greater; and each point lists all of its scores, with their indices, best first. *)
Theorem C06_merged_scores_and_indices {A} str size per_point (maps : list (xmap A)) mean gib masks out n :
  regular per_point maps -> averages mean gib n -> names_allowed maps -> (forall m, In m maps -> x_points m <> []) ->
  merge_crystal_maps str size per_point maps mean gib masks = Some out ->
  exists incs, length incs = length maps /\
    (forall k k' m m' inc inc' pt pt' x x', k < k' -> nth_error maps k = Some m -> nth_error maps k' = Some m' ->
       nth_error incs k = Some inc -> nth_error incs k' = Some inc' -> In pt (x_points m) -> In pt' (x_points m') ->
       In x (sims pt) -> In x' (sims pt') -> (x + inc < x' + inc')%Z) /\
    length (m_merged out) = size /\
    forall p, p < size ->
      Permutation (nth p (m_merged out) []) (expected per_point maps masks incs p) /\
      ordered_best_first (greater mean gib) (nth p (m_merged out) []).
Proof.
  intros REG AV NM NE H. destruct (run_all str size per_point maps mean gib masks out n REG AV NM H)
    as [tables [w [st [LT [AT [LW [PT [ES [INV [E1 [E2 [E3 E4]]]]]]]]]]]].
  assert (F : Forall (fun m => all_sims m <> []) maps).
  { apply Forall_forall. intros m I C. specialize (NE m I). destruct (x_points m) as [|pt l] eqn:EP; [congruence|].
    destruct REG as [_ [R1 R2]]. destruct (R2 m pt I) as [_ L]; [rewrite EP; left; reflexivity|].
    unfold all_sims in C. rewrite EP in C. cbn in C. destruct (sims pt); [cbn in L; lia|discriminate]. }
  destruct (increments_spec maps F) as [incs [EI [LI DI]]].
  exists incs. split; [exact LI|]. split.
  { intros k k' m m' inc inc' pt pt' x x' KL Nm Nm' Ni Ni' I I' X X'. apply (DI k k' m m'); try assumption;
      apply in_flat_map; eauto. }
  rewrite E4, map_length, seq_length. split; [reflexivity|]. intros p Hp.
  match goal with |- context [map ?f (seq 0 size)] => assert (NP : nth p (map f (seq 0 size)) [] = f p) end.
  { apply nth_error_nth. rewrite nth_error_map, nth_error_seq by exact Hp. reflexivity. }
  rewrite NP. cbv beta. split.
  2:{ intros i j a b L Na Nb. pose proof (sorted_by_nth _ _ (sort_best_sorted _ _) i j a b L Na Nb) as S.
      unfold before in S. destruct (fst a) as [x|], (fst b) as [y|]; try exact I; try discriminate.
      apply Qle_bool_iff in S. apply sign_le. exact S. }
  etransitivity; [apply sort_best_perm|]. rewrite EI.
  (* one row of (point, shifted point) *)
  set (col := map (fun it => (nth p (snd it) None, option_map (shift_point (Some (fst it))) (nth p (snd it) None))) (combine incs tables)).
  assert (C1 : column tables p = map fst col).
  { unfold col, column. rewrite map_map. cbn [fst]. assert (LL : length incs = length tables) by lia. clear - LL.
    revert tables LL. induction incs as [|i incs IH]; intros [|t tables] LL; cbn in *; try lia; [reflexivity|]. f_equal. apply IH. lia. }
  assert (C2 : column (map (fun it => map (option_map (shift_point (fst it))) (snd it)) (combine (map Some incs) tables)) p = map snd col).
  { unfold col, column. rewrite !map_map. cbn [snd fst]. clear. revert tables. induction incs as [|i incs IH]; intros [|t tables]; cbn; try reflexivity.
    f_equal; [|apply IH]. change (@None (point A)) with (option_map (shift_point (Some i)) (@None (point A))) at 1. apply map_nth. }
  rewrite C1, C2. unfold interleave.
  erewrite flat_map_ext; [|intros j; rewrite map_map; reflexivity].
  erewrite (flat_map_ext _ (fun j => map (fun x => match snd x with Some pt => nth_error (sims pt) j | None => None end) col));
    [|intros j; rewrite map_map; reflexivity].
  rewrite (combine_flat (fun x j => match fst x with Some pt => nth_error (scores pt) j | None => None end)
            (fun x j => match snd x with Some pt => nth_error (sims pt) j | None => None end)).
  etransitivity; [apply (transpose_perm (fun x j => (match fst x with Some pt => nth_error (scores pt) j | None => None end,
      match snd x with Some pt => nth_error (sims pt) j | None => None end)))|].
  (* map by map *)
  unfold col, expected.
  assert (G : forall l i, (forall k m, nth_error l k = Some m -> nth_error maps (i + k) = Some m) ->
     forall is ts, length is = length l -> length ts = length l ->
     (forall k t, nth_error ts k = Some t -> nth_error tables (i + k) = Some t) ->
     flat_map (fun x : option (point A) * option (point A) => map (fun j => (match fst x with Some pt => nth_error (scores pt) j | None => None end,
        match snd x with Some pt => nth_error (sims pt) j | None => None end)) (seq 0 per_point))
        (map (fun it => (nth p (snd it) None, option_map (shift_point (Some (fst it))) (nth p (snd it) None))) (combine is ts)) =
     flat_map (fun kmi : nat * (xmap A * Z) =>
        match entry_at (mask_of masks (fst kmi)) (x_points (fst (snd kmi))) p with
        | None => repeat (None, None) per_point
        | Some pt => combine (map Some (scores pt)) (map (fun i => Some (i + snd (snd kmi))%Z) (sims pt))
        end) (combine (seq i (length l)) (combine l is))).
  { induction l as [|m l IH]; intros i NL [|z is] [|t ts] L1 L2 NT; cbn in L1, L2; try lia; [reflexivity|].
    cbn [combine map flat_map length seq fst snd]. f_equal.
    - assert (Nm : nth_error maps i = Some m) by (rewrite <- (Nat.add_0_r i); apply NL; reflexivity).
      assert (Nt : nth_error tables i = Some t) by (rewrite <- (Nat.add_0_r i); apply NT; reflexivity).
      pose proof (AT i m p Nm Hp) as EA. rewrite (nth_error_nth _ _ _ Nt) in EA. rewrite EA.
      destruct (entry_at _ _ _) as [pt|] eqn:EE; cbn [option_map fst snd].
      + destruct REG as [_ [R1 R2]]. destruct (R2 m pt (nth_error_In _ _ Nm) (entry_in _ _ _ _ EE)) as [S1 S2].
        cbn [shift_point sims]. 
        rewrite <- (combine_map_map (fun j => nth_error (scores pt) j) (fun j => nth_error (map (Z.add z) (sims pt)) j)).
        f_equal.
        * rewrite <- S1. exact (map_nth_seq (scores pt) (fun x => x)).
        * replace per_point with (length (map (Z.add z) (sims pt))) by (rewrite map_length; exact S2).
          rewrite (map_nth_seq (map (Z.add z) (sims pt)) (fun x => x)), map_map. apply map_ext. intros a. f_equal. lia.
      + clear. generalize 0. induction per_point as [|q IH]; intros s; cbn; [reflexivity|]. f_equal. apply IH.
    - apply (IH (S i)); try lia.
      + intros k m' N'. replace (S i + k) with (i + S k) by lia. apply NL. exact N'.
      + intros k t' N'. replace (S i + k) with (i + S k) by lia. apply NT. exact N'. }
  rewrite (G maps 0); auto.
Qed.

(** ** Examples *)

Definition ex_str (i : nat) : string := match i with 0 => "0" | 1 => "1" | 2 => "2" | _ => "3" end%string.
Definition A_phase := Phase "a"%string 1. Definition B_phase := Phase "b"%string 2.
Definition ex_maps : list (xmap nat) :=
  [XMap [Point 10 [9#10; 8#10]%Q [5; 6]%Z 0%Z; Point 11 [1#10; 1#10]%Q [6; 7]%Z (-1)%Z; Point 12 [3#10; 2#10]%Q [6; 5]%Z 0%Z] A_phase;
   XMap [Point 20 [5#10; 4#10]%Q [0; 1]%Z 0%Z; Point 21 [2#10; 1#10]%Q [1; 2]%Z (-1)%Z; Point 22 [7#10; 6#10]%Q [3; 0]%Z 0%Z] B_phase].

Lemma ex_regular : regular 2 ex_maps.
Proof. split; [cbn; lia|]. split; [lia|]. intros m pt [<-|[<-|[]]]; cbn [x_points ex_maps]; intros I; cbn in I; intuition (subst; split; reflexivity). Qed.
Lemma ex_allowed : names_allowed ex_maps.
Proof. intros m [<-|[<-|[]]]; discriminate. Qed.

Example C05_example :
  regular 2 ex_maps /\ averages 2 None 2 /\ names_allowed ex_maps /\ NoDup (map (fun m => ph_name (x_phase m)) ex_maps) /\
  exists out, merge_crystal_maps ex_str 3 2 ex_maps 2 None None = Some out /\ m_phase_id out = [0; -1; 1]%Z /\
    map (option_map rot) (m_points out) = [Some 10; None; Some 22] /\
    map (fun e => ph_name (snd e)) (m_phases out) = ["not_indexed"; "a"; "b"]%string /\
    nth 0 (m_merged out) [] = [(Some (9#10), Some 5%Z); (Some (8#10), Some 6%Z); (Some (5#10), Some 8%Z); (Some (4#10), Some 9%Z)]%Q.
Proof.
  split; [exact ex_regular|]. split; [split; [lia|left; reflexivity]|]. split; [exact ex_allowed|]. split.
  { cbn. constructor; [intros [H|[]]; discriminate|]. constructor; [intros []|constructor]. }
  eexists. split; [vm_compute; reflexivity|]. repeat split; reflexivity.
Qed.

(** With a mask that hides the first point in the second map. *)
Example C05_mask_example :
  exists out, merge_crystal_maps ex_str 3 2
    [nth 0 ex_maps (XMap [] A_phase); XMap [Point 21 [2#10; 1#10]%Q [1; 2]%Z (-1)%Z; Point 22 [7#10; 6#10]%Q [3; 0]%Z 0%Z] B_phase] 1 (Some true)
    (Some [None; Some [true; false; false]]) = Some out /\ m_phase_id out = [0; 1; 1]%Z /\
    map (option_map rot) (m_points out) = [Some 10; Some 21; Some 22].
Proof. eexists. split; [vm_compute; reflexivity|]. split; reflexivity. Qed.

(** A point in neither map. *)
Example C05_uncovered_example :
  merge_crystal_maps ex_str 3 2
    [XMap [Point 10 [9#10; 8#10]%Q [5; 6]%Z 0%Z] A_phase; XMap [Point 20 [9#10; 8#10]%Q [5; 6]%Z 0%Z] B_phase] 1 None
    (Some [Some [false; true; true]; Some [true; true; false]]) = None.
Proof. reflexivity. Qed.

(** A single map: with two scores averaged, its second point, of which the second score is better, is lost. *)
Definition one_map : list (xmap nat) := [XMap [Point 10 [9#10; 8#10]%Q [5; 6]%Z 0%Z; Point 11 [8#10; 9#10]%Q [6; 7]%Z 0%Z] A_phase].
Example C05_single_map_example : names_allowed one_map /\ averages 2 None 2 /\ better true (9#10) (8#10) /\
  exists out, merge_crystal_maps ex_str 2 2 one_map 2 None None = Some out /\ m_phase_id out = [0; 1]%Z /\ map (option_map rot) (m_points out) = [Some 10; None].
Proof. split; [intros m [<-|[]]; discriminate|]. split; [split; [lia|left; reflexivity]|]. split; [cbn; lra|]. eexists. split; [vm_compute; reflexivity|]. split; reflexivity. Qed.

(** The code differs when maps share a phase: here maps 0 and 1 are of phase a, 2 and 3 of phase b, and each
    is best at one point. Two phases are listed, but the points get three different IDs, those of phase b two
    of them, so points of one phase do not have the same ID. *)
Definition repeated_maps : list (xmap nat) :=
  map (fun i => XMap (map (fun j => Point (10 * i + j) [if i =? j then 1%Q else 0%Q] [Z.of_nat j] 0%Z) (seq 0 4)) (if i <? 2 then A_phase else B_phase)) (seq 0 4).
Theorem C05_repeated_phase_refuted :
  regular 1 repeated_maps /\ names_allowed repeated_maps /\
  exists out, merge_crystal_maps ex_str 4 1 repeated_maps 1 None None = Some out /\
    map (option_map rot) (m_points out) = [Some 0; Some 11; Some 22; Some 33] /\
    m_phases out = [(0, A_phase); (1, B_phase)]%Z /\ m_phase_id out = [0; 0; 2; 1]%Z.
Proof.
  split; [split; [cbn; lia|split; [lia|]]; intros m pt [<-|[<-|[<-|[<-|[]]]]]; cbn; intros I; intuition (subst; split; reflexivity)|].
  split; [intros m [<-|[<-|[<-|[<-|[]]]]]; discriminate|].
  eexists. split; [vm_compute; reflexivity|]. repeat split; reflexivity.
Qed.

(** Two phases called a: the second is renamed. *)
Definition renamed_maps : list (xmap nat) :=
  [XMap [Point 10 [9#10]%Q [5]%Z 0%Z; Point 12 [3#10]%Q [6]%Z 0%Z] A_phase; XMap [Point 20 [5#10]%Q [0]%Z 0%Z; Point 22 [7#10]%Q [3]%Z 0%Z] (Phase "a" 2)].
Example C05_renamed_example :
  NoDup (map x_phase renamed_maps) /\
  (forall m m' k, In m renamed_maps -> In m' renamed_maps -> ph_name (x_phase m') <> (ph_name (x_phase m) ++ ex_str k)%string) /\
  exists out, merge_crystal_maps ex_str 2 1 renamed_maps 1 None None = Some out /\ m_phase_id out = [0; 1]%Z /\
    m_phases out = [(0, A_phase); (1, Phase "a1" 2)]%Z.
Proof.
  split; [cbn; constructor; [intros [H|[]]; discriminate|]; constructor; [intros []|constructor]|].
  split; [intros m m' k [<-|[<-|[]]] [<-|[<-|[]]]; cbn; destruct k as [|[|[|k]]]; discriminate|].
  eexists. split; [vm_compute; reflexivity|]. split; reflexivity.
Qed.

Print Assumptions C05_single_map_refuted.
Print Assumptions C05_best_map.
Print Assumptions C05_phase_of_point_partial.
Print Assumptions C06_merged_scores_and_indices.
