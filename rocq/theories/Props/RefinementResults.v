(** C42: results of refinements are stored at the points they were computed for. *)
From Coq Require Import List ZArith Bool Arith Lia.
From Verif Require Import Model.DictIndex Model.Binary Model.RefinementResults Proofs.RefinementResultsProofs.
From Verif Require Proofs.DictIndexProofs.
Import ListNotations.
Local Open Scope nat_scope.

Section C42.
Context {Pattern Rotation Center Result : Type}.
Variables (dp : Pattern) (dr : Rotation) (dc : Center).

(** Arrays of all n points of the map and the signal belong together; there is one PC or one per point. *)
Definition matching (n : nat) (m : cmap Rotation) (mask : option (list bool)) (patterns : list Pattern) (pcs : list Center) : Prop :=
  length (in_data m) = n /\ length (phases m) = n /\ length (rotations m) = n /\ length patterns = n /\
  (length pcs = 1 \/ length pcs = n) /\ match mask with Some k => length k = n | None => True end.
(** In the data and not masked out. *)
Definition in_scope (m : cmap Rotation) (mask : option (list bool)) (p : nat) : bool :=
  nth p (in_data m) false && match mask with Some k => negb (nth p k false) | None => true end.
Definition phase_at (m : cmap Rotation) (p : nat) : Z := nth p (phases m) (-1)%Z.
Definition center_at (pcs : list Center) (p : nat) : Center := if length pcs =? 1 then nth 0 pcs dc else nth p pcs dc.
(** The result of the solver for the pattern, rotation and PC of point p. *)
Definition result_at (solve : Pattern -> Rotation -> Center -> Result) m patterns pcs p : Result :=
  solve (nth p patterns dp) (nth p (rotations m) dr) (center_at pcs p).
(** Exactly one phase is to be refined. *)
Definition only_phase (n : nat) (m : cmap Rotation) mask (id : Z) : Prop :=
  id <> (-1)%Z /\ (exists p, p < n /\ in_scope m mask p = true /\ phase_at m p = id) /\
  forall p, p < n -> in_scope m mask p = true -> phase_at m p = id \/ phase_at m p = (-1)%Z.

Lemma kept_nth : forall n m mask patterns pcs p, matching n m mask patterns pcs -> p < n ->
  nth p (match mask with Some k => both (in_data m) (map negb k) | None => in_data m end) false = in_scope m mask p.
Proof.
  intros n m mask patterns pcs p (L1 & _ & _ & _ & _ & LM) P. unfold in_scope. destruct mask as [k|]; [|now rewrite andb_true_r].
  rewrite both_nth by (rewrite map_length; lia). rewrite nth_negb by lia. reflexivity.
Qed.
Lemma kept_length : forall n m mask patterns pcs, matching n m mask patterns pcs ->
  length (match mask with Some k => both (in_data m) (map negb k) | None => in_data m end) = n.
Proof.
  intros n m mask patterns pcs (L1 & _ & _ & _ & _ & LM). destruct mask as [k|]; [|exact L1]. rewrite both_length; rewrite ?map_length; lia.
Qed.

Definition indexed_at (m : cmap Rotation) (p : nat) : bool := nth p (in_data m) false && negb (Z.eqb (phase_at m p) (-1)).
Lemma scatter_indexed : forall n m mask patterns pcs, matching n m mask patterns pcs ->
  exists idx, scatter false (in_data m) (is_indexed m) = Some idx /\ length idx = n /\ forall p, p < n -> nth p idx false = indexed_at m p.
Proof.
  intros n m mask patterns pcs (L1 & L2 & _). unfold is_indexed, phase_id. rewrite Proofs.DictIndexProofs.scatter_compress by lia.
  eexists. split; [reflexivity|]. split; [rewrite map_length, combine_length; lia|]. intros p P.
  set (g := fun bx : bool * Z => if fst bx then negb (Z.eqb (snd bx) (-1)) else false).
  rewrite (nth_indep _ false (g (false, (-1)%Z))) by (rewrite map_length, combine_length; lia).
  rewrite map_nth, nth_combine by lia. unfold g, indexed_at, phase_at. cbn [fst snd]. now destruct (nth p (in_data m) false).
Qed.

Lemma ids_in : forall n m mask patterns pcs i, matching n m mask patterns pcs ->
  let ids := match mask with Some k => compress (compress (in_data m) (map negb k)) (phase_id m) | None => compress (is_indexed m) (phase_id m) end in
  In i ids <-> exists p, p < n /\ in_scope m mask p = true /\ phase_at m p = i /\ (mask = None -> i <> (-1)%Z).
Proof.
  intros n m mask patterns pcs i (L1 & L2 & _ & _ & _ & LM) ids. unfold ids, phase_id, in_scope, phase_at. destruct mask as [k|].
  - rewrite compress_compress by (rewrite ?map_length; lia). rewrite (in_compress _ _ _ (-1)%Z) by (rewrite both_length; rewrite ?map_length; lia).
    split.
    + intros (p & P & B & E). exists p. rewrite both_nth in B by (rewrite map_length; lia). rewrite nth_negb in B by lia. repeat split; auto; [lia|congruence].
    + intros (p & P & B & E & _). exists p. rewrite both_nth by (rewrite map_length; lia). rewrite nth_negb by lia. repeat split; auto; lia.
  - unfold is_indexed, phase_id.
    replace (map (fun i0 => negb (Z.eqb i0 (-1))) (compress (in_data m) (phases m))) with (compress (in_data m) (map (fun i0 => negb (Z.eqb i0 (-1))) (phases m))) by apply compress_map.
    rewrite compress_compress by (rewrite ?map_length; lia). rewrite (in_compress _ _ _ (-1)%Z) by (rewrite both_length; rewrite ?map_length; lia).
    assert (G : forall p, p < n -> nth p (map (fun i0 => negb (Z.eqb i0 (-1))) (phases m)) false = negb (Z.eqb (nth p (phases m) (-1)%Z) (-1))).
    { intros p P. set (g := fun i0 => negb (Z.eqb i0 (-1))). rewrite (nth_indep _ false (g (-1)%Z)) by (rewrite map_length; lia). rewrite map_nth. reflexivity. }
    split.
    + intros (p & P & B & E). exists p. rewrite both_nth in B by (rewrite map_length; lia). rewrite G in B by lia. apply andb_true_iff in B as [B1 B2].
      rewrite B1. repeat split; auto; [lia|]. intros _. apply negb_true_iff, Z.eqb_neq in B2. congruence.
    + intros (p & P & B & E & N). exists p. rewrite both_nth by (rewrite map_length; lia). rewrite G by lia. rewrite andb_true_r in B. rewrite B.
      repeat split; auto; [lia|]. apply negb_true_iff, Z.eqb_neq. rewrite E. auto.
Qed.

Lemma phase_found : forall n m mask patterns pcs i, matching n m mask patterns pcs ->
  the_phase (match mask with Some k => compress (compress (in_data m) (map negb k)) (phase_id m) | None => compress (is_indexed m) (phase_id m) end) = Some i
  <-> only_phase n m mask i.
Proof.
  intros n m mask patterns pcs i M. rewrite the_phase_spec. unfold only_phase. split.
  - intros (N & I & A). split; [exact N|]. split.
    + apply (ids_in n m mask patterns pcs i M) in I as (p & P & S & E & _). eauto.
    + intros p P S. destruct (Z.eq_dec (phase_at m p) (-1)) as [E|E]; [now right|]. apply A. apply (ids_in n m mask patterns pcs _ M). exists p. auto.
  - intros (N & (p & P & S & E) & A). split; [exact N|]. split.
    + apply (ids_in n m mask patterns pcs i M). exists p. auto.
    + intros j J. apply (ids_in n m mask patterns pcs j M) in J as (q & Q & S' & E' & _). subst j. now apply A.
Qed.

Lemma points_spec : forall n m mask patterns pcs, matching n m mask patterns pcs ->
  match get_points m mask with
  | Some (points, kept, id) => only_phase n m mask id /\ length points = n /\ length kept = n /\
      (forall p, p < n -> nth p kept false = in_scope m mask p /\ nth p points false = in_scope m mask p && negb (Z.eqb (phase_at m p) (-1)))
  | None => forall id, ~ only_phase n m mask id
  end.
Proof.
  intros n m mask patterns pcs M. unfold get_points.
  destruct (the_phase _) as [id|] eqn:T.
  - cbn [bind]. destruct (scatter_indexed n m mask patterns pcs M) as (idx & S & LI & NI). rewrite S. cbn [bind].
    pose proof (kept_length n m mask patterns pcs M) as LK.
    split; [now apply (phase_found n m mask patterns pcs)|].
    split; [rewrite both_length; lia|]. split; [exact LK|]. intros p P. split; [now apply (kept_nth n m mask patterns pcs)|].
    rewrite both_nth by lia. rewrite (kept_nth n m mask patterns pcs p M P), NI by exact P. unfold indexed_at, in_scope.
    destruct (nth p (in_data m) false); cbn [andb]; [|reflexivity]. reflexivity.
  - cbn [bind]. intros id O. apply (phase_found n m mask patterns pcs) in O; [|exact M]. congruence.
Qed.

Lemma inputs_spec : forall n m mask patterns pcs points, matching n m mask patterns pcs -> length points = n ->
  (forall p, p < n -> nth p points false = true -> nth p (in_data m) false = true) ->
  inputs m points patterns pcs = compress points (combine (combine patterns (rotations m)) (if length pcs =? 1 then repeat (nth 0 pcs dc) n else pcs)).
Proof.
  intros n m mask patterns pcs points (L1 & L2 & L3 & L4 & L5 & _) LP SUB. unfold inputs.
  rewrite compress_compress by lia.
  assert (B : both (in_data m) points = points).
  { apply nth_ext with (d := false) (d' := false); [rewrite both_length; lia|]. intros p P. rewrite both_length in P by lia. rewrite both_nth by lia.
    destruct (nth p points false) eqn:E; [|now rewrite andb_false_r]. now rewrite SUB by (auto; lia). }
  rewrite B.
  assert (C : centers points pcs = compress points (if length pcs =? 1 then repeat (nth 0 pcs dc) n else pcs)).
  { unfold centers. destruct pcs as [|pc [|pc' pcs]]; cbn [length Nat.eqb nth]; [reflexivity| |reflexivity]. rewrite <- LP. symmetry. apply compress_repeat. }
  rewrite C, <- compress_combine by lia. rewrite <- compress_combine; [reflexivity|]. rewrite combine_length.
  destruct (Nat.eqb_spec (length pcs) 1); [rewrite repeat_length; lia|lia].
Qed.
Lemma input_nth : forall n m mask patterns pcs solve p, matching n m mask patterns pcs -> p < n ->
  (fun i : Pattern * Rotation * Center => solve (fst (fst i)) (snd (fst i)) (snd i) : Result)
    (nth p (combine (combine patterns (rotations m)) (if length pcs =? 1 then repeat (nth 0 pcs dc) n else pcs)) (dp, dr, dc))
  = result_at solve m patterns pcs p.
Proof.
  intros n m mask patterns pcs solve p (L1 & L2 & L3 & L4 & L5 & _) P.
  rewrite !nth_combine; [|lia|rewrite combine_length; destruct (Nat.eqb_spec (length pcs) 1); [rewrite repeat_length; lia|lia]].
  cbn [fst snd]. unfold result_at, center_at. destruct (length pcs =? 1); [|reflexivity]. f_equal.
  rewrite (nth_indep _ dc (nth 0 pcs dc)) by (rewrite repeat_length; lia). apply nth_repeat.
Qed.

(** Refining orientations (with or without PCs): it succeeds if exactly one phase is to be refined, and then every point
    in the data, indexed and not masked out has the result computed from its own pattern, rotation and PC and keeps its
    phase; the other points have the fill value, those in the data being not indexed as before. *)
Theorem C42_results_at_their_points : forall n m mask patterns pcs solve fill, matching n m mask patterns pcs ->
  match refine_orientations m mask patterns pcs solve fill with
  | Some out =>
      length (r_in_data out) = n /\ length (r_phases out) = n /\ length (r_results out) = n /\
      forall p, p < n ->
        nth p (r_in_data out) false = in_scope m mask p /\
        (in_scope m mask p = true -> nth p (r_phases out) 0%Z = phase_at m p) /\
        nth p (r_results out) fill = if in_scope m mask p && negb (Z.eqb (phase_at m p) (-1)) then result_at solve m patterns pcs p else fill
  | None => forall id, ~ only_phase n m mask id
  end.
Proof.
  intros n m mask patterns pcs solve fill M. unfold refine_orientations. pose proof (points_spec n m mask patterns pcs M) as PS.
  destruct (get_points m mask) as [[[points kept] id]|]; [|exact PS]. cbn [bind]. destruct PS as ((N & EX & ALL) & LP & LK & NT).
  destruct (scatter_indexed n m mask patterns pcs M) as (idx & S & LI & NI). rewrite S. cbn [bind].
  assert (SUB : forall p, p < n -> nth p points false = true -> nth p (in_data m) false = true).
  { intros p P H. destruct (NT p P) as [_ E]. rewrite E in H. unfold in_scope in H. destruct (nth p (in_data m) false); [reflexivity|cbn in H; discriminate]. }
  rewrite (inputs_spec n m mask patterns pcs points M LP SUB).
  pose proof M as (L1 & L2 & L3 & L4 & L5 & _).
  destruct (put_nth (fun i : Pattern * Rotation * Center => solve (fst (fst i)) (snd (fst i)) (snd i)) points
    (combine (combine patterns (rotations m)) (if length pcs =? 1 then repeat (nth 0 pcs dc) n else pcs)) (repeat fill (length points)) fill (dp, dr, dc)) as (r & E & LR & NR).
  { rewrite !combine_length. destruct (Nat.eqb_spec (length pcs) 1); [rewrite repeat_length; lia|lia]. }
  { now rewrite repeat_length. }
  rewrite E. cbn [bind r_in_data r_phases r_results].
  assert (LPH : length (put_one points id (repeat 0%Z (length points))) = n) by (rewrite put_one_length; rewrite repeat_length; lia).
  split; [exact LK|]. split; [rewrite put_one_length; rewrite ?map_length; lia|]. split; [lia|].
  intros p P. destruct (NT p P) as [NK NP]. split; [exact NK|]. split.
  - intros SC. rewrite put_one_nth by (rewrite ?map_length; lia). rewrite nth_negb by lia. rewrite NI by exact P. unfold indexed_at.
    assert (I : nth p (in_data m) false = true) by (unfold in_scope in SC; now apply andb_true_iff in SC). rewrite I. cbn [andb].
    destruct (Z.eqb_spec (phase_at m p) (-1)) as [Q|Q]; cbn [negb]; [now rewrite Q|].
    rewrite put_one_nth by (rewrite repeat_length; lia). rewrite NP, SC. cbn [negb andb]. destruct (ALL p P SC); congruence.
  - rewrite NR by lia. rewrite NP. destruct (in_scope m mask p && negb (Z.eqb (phase_at m p) (-1))).
    + rewrite <- (input_nth n m mask patterns pcs solve p M P). reflexivity.
    + apply nth_repeat.
Qed.
(** It succeeds whenever there is exactly one phase. *)
Theorem C42_succeeds : forall n m mask patterns pcs (solve : Pattern -> Rotation -> Center -> Result) fill id, matching n m mask patterns pcs -> only_phase n m mask id ->
  exists out, refine_orientations m mask patterns pcs solve fill = Some out.
Proof.
  intros n m mask patterns pcs solve fill id M O. pose proof (C42_results_at_their_points n m mask patterns pcs solve fill M) as H.
  destruct (refine_orientations m mask patterns pcs solve fill) as [out|]; [eauto|]. exfalso. now apply (H id).
Qed.

(** The points refined, in order. *)
Definition refined_points (n : nat) (m : cmap Rotation) mask : list nat :=
  filter (fun p => in_scope m mask p && negb (Z.eqb (phase_at m p) (-1))) (seq 0 n).

Lemma filter_ext_in' : forall {A} (f g : A -> bool) l, (forall x, In x l -> f x = g x) -> filter f l = filter g l.
Proof. intros. now apply filter_ext_in. Qed.

(** Refining PCs: results are in the order of the refined points. *)
Theorem C42_centers_in_order : forall n m mask patterns pcs solve res shape, matching n m mask patterns pcs ->
  refine_centers m mask patterns pcs solve = Some (res, shape) -> res = map (result_at solve m patterns pcs) (refined_points n m mask).
Proof.
  intros n m mask patterns pcs solve res shape M H. unfold refine_centers in H. pose proof (points_spec n m mask patterns pcs M) as PS.
  destruct (get_points m mask) as [[[points kept] id]|]; [|discriminate]. cbn [bind] in H. injection H as H _. subst res.
  destruct PS as (_ & LP & LK & NT).
  assert (SUB : forall p, p < n -> nth p points false = true -> nth p (in_data m) false = true).
  { intros p P X. destruct (NT p P) as [_ E]. rewrite E in X. unfold in_scope in X. destruct (nth p (in_data m) false); [reflexivity|cbn in X; discriminate]. }
  rewrite (inputs_spec n m mask patterns pcs points M LP SUB). pose proof M as (L1 & L2 & L3 & L4 & L5 & _).
  rewrite (positions_compress _ _ (dp, dr, dc)) by (rewrite !combine_length; destruct (Nat.eqb_spec (length pcs) 1); [rewrite repeat_length; lia|lia]).
  rewrite map_map. unfold refined_points, positions. rewrite LP.
  rewrite (filter_ext_in' (fun p => nth p points false) (fun p => in_scope m mask p && negb (Z.eqb (phase_at m p) (-1)))).
  - apply map_ext_in. intros p P. apply filter_In in P as [P _]. apply in_seq in P. now apply (input_nth n m mask).
  - intros p P. apply in_seq in P. apply NT. lia.
Qed.

Lemma shape_points : forall n m mask patterns pcs (solve : Pattern -> Rotation -> Center -> Result) res s, matching n m mask patterns pcs ->
  refine_centers m mask patterns pcs solve = Some (res, Some s) ->
  exists kept, positions kept = refined_points n m mask /\ length kept = n /\ positions kept <> [] /\
   s = match map_shape m with
      | [_; nc] => [span (map (fun p => p / nc) (positions kept)); span (map (fun p => p mod nc) (positions kept))]
      | _ => [span (positions kept)] end /\ fold_right Nat.mul 1 s = length (positions kept).
Proof.
  intros n m mask patterns pcs solve res s M H. unfold refine_centers in H. pose proof (points_spec n m mask patterns pcs M) as PS.
  destruct (get_points m mask) as [[[points kept] id]|]; [|discriminate]. cbn [bind] in H. injection H as _ H.
  destruct PS as ((N & (q & Q & SQ & EQ) & ALL) & LP & LK & NT). unfold mask_shape in H.
  destruct (all_equal points kept && _) eqn:E; [|discriminate]. injection H as H. apply andb_true_iff in E as [E1 E2].
  apply all_equal_eq in E1. subst kept. apply Nat.eqb_eq in E2. exists points. split.
  { unfold positions, refined_points. rewrite LP. apply filter_ext_in'. intros p P. apply in_seq in P. apply NT. lia. }
  split; [exact LP|]. split.
  { intros Z. assert (I : In q (positions points)) by (apply in_positions; split; [lia|]; destruct (NT q Q) as [-> _]; exact SQ). rewrite Z in I. destruct I. }
  split; [now rewrite <- H|]. now rewrite <- H.
Qed.

(** If they are given the shape of a rectangle, the result in row i and column j of the array is that of the point in row
    r0 + i and column c0 + j of the map, and no others are refined. *)
Theorem C42_centers_in_rectangle : forall nr nc m mask patterns pcs solve res rs cs, matching (nr * nc) m mask patterns pcs ->
  map_shape m = [nr; nc] -> refine_centers m mask patterns pcs solve = Some (res, Some [rs; cs]) ->
  exists r0 c0, r0 + rs <= nr /\ c0 + cs <= nc /\ length res = rs * cs /\
   (forall i j (d : Result), i < rs -> j < cs -> nth (i * cs + j) res d = result_at solve m patterns pcs ((r0 + i) * nc + (c0 + j))) /\
   (forall p, In p (refined_points (nr * nc) m mask) <-> exists i j, i < rs /\ j < cs /\ p = (r0 + i) * nc + (c0 + j)).
Proof.
  intros nr nc m mask patterns pcs solve res rs cs M SH H.
  pose proof (C42_centers_in_order _ _ _ _ _ _ _ _ M H) as OR.
  destruct (shape_points _ _ _ _ _ _ _ _ M H) as (kept & EP & LK & NE & S & AREA). rewrite SH in S. injection S as SR SC.
  set (ps := positions kept) in *.
  set (r0 := list_min (map (fun p => p / nc) ps)) in *. set (r1 := list_max (map (fun p => p / nc) ps)) in *.
  set (c0 := list_min (map (fun p => p mod nc) ps)) in *. set (c1 := list_max (map (fun p => p mod nc) ps)) in *.
  assert (NR : map (fun p => p / nc) ps <> []) by (destruct ps; [congruence|discriminate]).
  assert (NC : map (fun p => p mod nc) ps <> []) by (destruct ps; [congruence|discriminate]).
  assert (NC0 : nc <> 0).
  { intros ->. destruct ps as [|p ps'] eqn:EE; [congruence|]. assert (I : In p (positions kept)) by (fold ps; rewrite EE; now left). apply in_positions in I. lia. }
  assert (RB : r0 <= r1 /\ r1 < nr).
  { split.
    - apply list_min_le, list_max_in, NR.
    - pose proof (list_max_in _ NR) as I. fold r1 in I. apply in_map_iff in I as (p & <- & I). apply in_positions in I as [I _]. apply Nat.div_lt_upper_bound; lia. }
  assert (CB : c0 <= c1 /\ c1 < nc).
  { split.
    - apply list_min_le, list_max_in, NC.
    - pose proof (list_max_in _ NC) as I. fold c1 in I. apply in_map_iff in I as (p & <- & I). apply Nat.mod_upper_bound; lia. }
  assert (BOX : ps = box nc r0 c0 rs cs).
  { unfold span in SR, SC. fold r0 r1 in SR. fold c0 c1 in SC. rewrite SR, SC. rewrite <- (filter_box nr) by lia. unfold ps, positions. rewrite LK.
    apply filter_same_length.
    - intros p P K. assert (I : In p ps) by (apply filter_In; rewrite LK; auto).
      rewrite !andb_true_iff, !Nat.leb_le. repeat split;
      [apply list_min_le|apply list_max_ge|apply list_min_le|apply list_max_ge]; apply (in_map (fun p => p / nc) ps p I) || apply (in_map (fun p => p mod nc) ps p I).
    - rewrite (filter_box nr) by lia. rewrite box_length. cbn [fold_right] in AREA. rewrite SR, SC in AREA. unfold ps, positions in AREA. rewrite LK in AREA. lia. }
  exists r0, c0. unfold span in SR, SC. fold r0 r1 in SR. fold c0 c1 in SC.
  split; [lia|]. split; [lia|]. rewrite <- EP in OR. fold ps in OR.
  split; [rewrite OR, map_length, BOX; apply box_length|]. split.
  - intros i j d I J. rewrite OR, BOX.
    assert (LT : i * cs + j < rs * cs) by nia.
    rewrite (nth_indep _ d (result_at solve m patterns pcs 0)) by (now rewrite map_length, box_length).
    rewrite map_nth, box_nth by assumption. reflexivity.
  - intros p. rewrite <- EP. fold ps. rewrite BOX. unfold box. rewrite in_flat_map. split.
    + intros (r & R & I). apply in_map_iff in I as (c & <- & C). apply in_seq in R. apply in_seq in C. exists (r - r0), (c - c0). repeat split; try lia. f_equal; [f_equal|]; lia.
    + intros (i & j & I & J & ->). exists (r0 + i). split; [apply in_seq; lia|]. apply in_map_iff. exists (c0 + j). split; [reflexivity|]. apply in_seq; lia.
Qed.

(** The same for a line of points. *)
Theorem C42_centers_in_line : forall n m mask patterns pcs solve res s, matching n m mask patterns pcs ->
  map_shape m = [n] -> refine_centers m mask patterns pcs solve = Some (res, Some [s]) ->
  exists i0, i0 + s <= n /\ length res = s /\ (forall i d, i < s -> nth i res d = result_at solve m patterns pcs (i0 + i)) /\
   (forall p, In p (refined_points n m mask) <-> i0 <= p < i0 + s).
Proof.
  intros n m mask patterns pcs solve res s M SH H.
  pose proof (C42_centers_in_order _ _ _ _ _ _ _ _ M H) as OR.
  destruct (shape_points _ _ _ _ _ _ _ _ M H) as (kept & EP & LK & NE & S & AREA). rewrite SH in S. injection S as SR.
  set (ps := positions kept) in *. set (a := list_min ps) in *. set (b := list_max ps) in *.
  assert (AB : a <= b) by (apply list_min_le, list_max_in, NE).
  assert (BN : b < n) by (pose proof (list_max_in _ NE) as I; fold b in I; apply in_positions in I; lia).
  assert (BOX : ps = seq a s).
  { unfold span in SR. fold a b in SR. rewrite SR. rewrite <- (filter_seq_range a b n) by lia. unfold ps, positions. rewrite LK. apply filter_same_length.
    - intros p P K. assert (I : In p ps) by (apply filter_In; rewrite LK; auto). rewrite andb_true_iff, !Nat.leb_le. split; [now apply list_min_le|now apply list_max_ge].
    - rewrite filter_seq_range by lia. rewrite seq_length. cbn [fold_right] in AREA. rewrite SR in AREA. unfold ps, positions in AREA. rewrite LK in AREA. lia. }
  exists a. unfold span in SR. fold a b in SR. split; [lia|]. rewrite <- EP in OR. fold ps in OR. rewrite BOX in OR.
  split; [rewrite OR, map_length; apply seq_length|]. split.
  - intros i d I. rewrite OR. rewrite (nth_indep _ d (result_at solve m patterns pcs 0)) by (now rewrite map_length, seq_length). rewrite map_nth, seq_nth by exact I. reflexivity.
  - intros p. rewrite <- EP. fold ps. rewrite BOX, in_seq. lia.
Qed.
End C42.

(** Pseudo-symmetry: the variant returned, and its index, has the highest score, the first of equal ones. *)
Lemma argmax_aux : forall l i best v, best < i -> let j := argbest Z.gtb l i best v in
  (j = best /\ (forall q, q < length l -> (nth q l 0 <= v)%Z)) \/
  (i <= j < i + length l /\ (v < nth (j - i) l 0)%Z /\ (forall q, q < length l -> (nth q l 0 <= nth (j - i) l 0)%Z) /\ (forall q, i + q < j -> (nth q l 0 < nth (j - i) l 0)%Z)).
Proof.
  induction l as [|x l IH]; intros i best v B; cbn [argbest length].
  - left. split; [reflexivity|]. intros; lia.
  - rewrite Z.gtb_ltb. destruct (Z.ltb_spec v x) as [X|X].
    + destruct (IH (S i) i x ltac:(lia)) as [[E A]|(R & G & A & F)].
      * right. rewrite E. rewrite Nat.sub_diag. cbn [nth]. split; [lia|]. split; [exact X|]. split; [|intros; lia].
        intros [|q] Q; [lia|]. apply A. lia.
      * right. set (j := argbest Z.gtb l (S i) i x) in *. replace (j - i) with (S (j - S i)) by lia. cbn [nth]. split; [lia|]. split; [lia|]. split.
        -- intros [|q] Q; [lia|]. apply A. lia.
        -- intros [|q] Q; [lia|]. apply F. lia.
    + destruct (IH (S i) best v ltac:(lia)) as [[E A]|(R & G & A & F)].
      * left. split; [exact E|]. intros [|q] Q; [exact X|]. apply A. lia.
      * right. set (j := argbest Z.gtb l (S i) best v) in *. replace (j - i) with (S (j - S i)) by lia. cbn [nth]. split; [lia|]. split; [lia|]. split.
        -- intros [|q] Q; [lia|]. apply A. lia.
        -- intros [|q] Q; [lia|]. apply F. lia.
Qed.
Lemma argmax_spec : forall l, l <> [] -> argmax l < length l /\ (forall q, q < length l -> (nth q l 0 <= nth (argmax l) l 0)%Z) /\ (forall q, q < argmax l -> (nth q l 0 < nth (argmax l) l 0)%Z).
Proof.
  intros [|x l] N; [congruence|]. unfold argmax. destruct (argmax_aux l 1 0 x ltac:(lia)) as [[E A]|(R & G & A & F)].
  - rewrite E. cbn [nth length]. split; [lia|]. split; [|intros; lia]. intros [|q] Q; [lia|]. apply A. lia.
  - set (j := argbest Z.gtb l 1 0 x) in *. destruct j as [|j]; [lia|]. replace (S j - 1) with j in * by lia. cbn [nth length]. split; [lia|]. split.
    + intros [|q] Q; [lia|]. apply A. lia.
    + intros [|q] Q; [exact G|]. apply F. lia.
Qed.
Lemma argmin_argmax : forall l, argmin (map (fun x => (1 - x)%Z) l) = argmax l.
Proof.
  assert (G : forall l x i b, argbest Z.ltb (map (fun x => (1 - x)%Z) l) i b (1 - x) = argbest Z.gtb l i b x).
  { induction l as [|y l IH]; intros x i b; cbn [argbest map]; [reflexivity|]. rewrite Z.gtb_ltb.
    replace (1 - y <? 1 - x)%Z with (x <? y)%Z by (destruct (Z.ltb_spec x y), (Z.ltb_spec (1 - y) (1 - x)); lia). destruct (x <? y)%Z; apply IH. }
  intros [|x l]; [reflexivity|]. cbn [map]. apply G.
Qed.

Theorem C42_best_variant : forall {A} (rs : list (Z * A)), rs <> [] ->
  exists score x i, best_scipy rs = Some (score, x, i) /\ best_nlopt rs = Some (score, x, i) /\
  nth_error rs i = Some (score, x) /\ (forall q r, nth_error rs q = Some r -> (fst r <= score)%Z) /\ (forall q r, q < i -> nth_error rs q = Some r -> (fst r < score)%Z).
Proof.
  intros A rs N. unfold best_scipy, best_nlopt.
  assert (E : map (fun r : Z * A => (1 - fst r)%Z) rs = map (fun x => (1 - x)%Z) (map fst rs)) by (rewrite map_map; reflexivity).
  rewrite E, argmin_argmax. destruct (argmax_spec (map fst rs)) as (L & M & F); [destruct rs; [congruence|discriminate]|]. rewrite map_length in *.
  set (i := argmax (map fst rs)) in *. destruct (nth_error rs i) as [[s x]|] eqn:Q; [|apply nth_error_None in Q; lia].
  assert (G : forall q r, nth_error rs q = Some r -> nth q (map fst rs) 0%Z = fst r).
  { intros q r H. apply nth_error_nth. now apply map_nth_error. }
  assert (GI : nth i (map fst rs) 0%Z = s) by (apply (G i (s, x) Q)).
  exists s, x, i. cbn [option_map]. repeat split; auto.
  - intros q r H. rewrite <- (G q r H), <- GI. apply M. apply nth_error_Some. congruence.
  - intros q r LT H. rewrite <- (G q r H), <- GI. now apply F.
Qed.
(** Index 0 is the map's own rotation and index i + 1 operator i applied to it. *)
Theorem C42_variant_index : forall {R O} (op : O -> R -> R) ops r i, nth_error (variants op ops r) i =
  match i with 0 => Some r | S i => option_map (fun o => op o r) (nth_error ops i) end.
Proof. intros. unfold variants. destruct i; [reflexivity|]. cbn [nth_error]. apply nth_error_map. Qed.

(** A map of two rows and three columns with a point not indexed and one masked out. *)
Definition example_map := Cmap [true; true; true; true; true; false] [2; 2; -1; 2; 2; 5]%Z [10; 11; 12; 13; 14; 15] [2; 3].
Definition example_mask := Some [false; false; false; false; true; false].
Example C42_case : matching 6 example_map example_mask [20; 21; 22; 23; 24; 25] [7] /\ only_phase 6 example_map example_mask 2.
Proof.
  split; [repeat split; cbn; auto|]. split; [lia|]. split; [exists 0; repeat split; cbn; lia|].
  intros p P S. do 6 (destruct p as [|p]; [cbn in *; first [discriminate | auto]|]). lia.
Qed.
Example C42_case_rectangle : refine_centers (Cmap (repeat true 6) (repeat 0%Z 6) [10; 11; 12; 13; 14; 15] [2; 3]) (Some [true; false; false; true; false; false])
   [20; 21; 22; 23; 24; 25] [7] (fun a b c => (a, b, c)) = Some ([(21, 11, 7); (22, 12, 7); (24, 14, 7); (25, 15, 7)], Some [2; 2]).
Proof. reflexivity. Qed.
Print Assumptions C42_results_at_their_points.
Print Assumptions C42_centers_in_rectangle.
