(** C103: however patterns are chunked, refinement treats each map point with its own pattern, orientations, PC and bounds. *)
From Coq Require Import List Reals Bool Arith ZArith Lia.
From Verif Require Import Model.Binary Model.DictIndex Model.Chunking Model.RefinementBounds Model.RefinementResults Model.RefinementChunks.
From Verif Require Import Proofs.ChunkingProofs Proofs.RefinementResultsProofs Proofs.RefinementChunksProofs Props.RefinementResults.
Import ListNotations.
Local Open Scope nat_scope.

(** ** Specification *)
Section C103.
Context {Pixel Quat : Type}.
Local Notation pattern := (list Pixel).
Variables (mul : Quat -> Quat -> Quat) (euler numbers : Quat -> list R) (d : Quat).
Variables (index_chunks : list nat -> list bool -> list nat) (auto : option nat -> list spec -> list nat -> nat -> nat).
(** Orientations have three Euler angles; Dask's chunks of an indexed array have all its items, and sizes it chooses are positive. *)
Hypothesis three_angles : forall q, length (euler q) = 3.
Hypothesis index_chunks_cover : forall sizes points, length points = axis_length sizes ->
  axis_length (index_chunks sizes points) = length (filter (fun x => x) points).
Hypothesis auto_positive : forall bytes specs sh i, 1 <= auto bytes specs sh i.

(** Pixels of a pattern that are not masked. *)
Definition pixels_used (mask : option (list bool)) (p : pattern) : pattern := match mask with None => p | Some k => compress (map negb k) p end.
(** The best orientation of a point, and this one followed by its pseudo-symmetric variants. *)
Definition orientation_at (m : cmap (list Quat)) (p : nat) : Quat := hd d (nth p (rotations m) []).
Definition all_variants (ops : option (list Quat)) (r : Quat) : list Quat := r :: match ops with None => [] | Some l => map (fun o => mul o r) l end.
(** The row of results of point p: the solver applied to what belongs to point p. *)
Definition row_at (mode : mode) (solve : solver) (m : cmap (list Quat)) (patterns : list pattern) (pcs : list (list R)) (signal_mask : option (list bool))
    (ops : option (list Quat)) (trust : option argument) (p : nat) : list R :=
  let pat := pixels_used signal_mask (nth p patterns []) in
  let r := orientation_at m p in
  let c := center_at [] pcs p in
  let lower x := fst (bound_constraints mode x trust) in
  let upper x := snd (bound_constraints mode x trust) in
  match mode with
  | Ori => let x := map euler (all_variants ops r) in solve pat x [c] (map lower x) (map upper x)
  | Pc => solve pat [numbers r] [c] [lower c] [upper c]
  | OriPc => let x := map euler (all_variants ops r) in
      solve pat x (map (fun _ => c) x) (map (fun e => lower (e ++ c)) x) (map (fun e => upper (e ++ c)) x)
  end.

(** ** Proofs *)
Definition prepared (ps : list (list pattern)) : Prop :=
  1 <= length (concat ps) /\ (largest ps = length (concat ps) \/ exists c, 1 <= c /\ ps = cut (blockdims (length (concat ps)) c) (concat ps)).
Lemma blocks_all vs f ps args : prepared ps -> Forall (fun a => length a = length (concat ps)) args ->
  map_blocks (chunk_func vs f) ps (map (cut (blockdims (length (concat ps)) (largest ps))) args) = chunk_func vs f (concat ps) args.
Proof.
  intros (N & [L|(c & C & E)]) F.
  - rewrite L, blockdims_whole. now apply map_blocks_one.
  - assert (S : map (@length pattern) ps = blockdims (length (concat ps)) c).
    { rewrite E at 1. apply cut_sizes. now apply blockdims_length. }
    unfold largest. rewrite S, blockdims_again by assumption. rewrite E at 1. apply map_blocks_equal. now apply blockdims_length.
Qed.

Lemma transpose_outer ops : forall rot, transpose (length rot) (outer mul ops rot) = map (fun r => map (fun o => mul o r) ops) rot.
Proof.
  induction rot as [|r rot IH]; [reflexivity|]. cbn [length transpose map]. f_equal.
  - unfold outer. rewrite map_map. cbn. clear IH. induction ops as [|o ops IHo]; cbn; [reflexivity|]. now rewrite IHo.
  - rewrite <- IH. f_equal. unfold outer. now rewrite map_map.
Qed.
Lemma with_variants_spec ops rot : with_variants mul ops rot = map (all_variants ops) rot.
Proof.
  unfold with_variants, all_variants. destruct ops as [ops|]; [|reflexivity]. rewrite transpose_outer.
  induction rot as [|r rot IH]; cbn; [reflexivity|]. now rewrite IH.
Qed.

Lemma concat_map_blocks {A B} (g : A -> B) (b : list (list A)) : concat (map (map g) b) = map g (concat b).
Proof. symmetry. apply concat_map. Qed.
Lemma count_filter l : length (filter (fun x : bool => x) l) = count_occ bool_dec l true.
Proof. induction l as [|[] l IH]; cbn; congruence. Qed.
Lemma compress_all {A} : forall k (l : list A), length k = length l -> forallb (fun x => x) k = true -> compress k l = l.
Proof. induction k as [|b k IH]; intros [|x l] L F; cbn in *; try discriminate; try reflexivity. apply andb_true_iff in F as (-> & F). now rewrite IH by (auto; lia). Qed.
Lemma compress_length {A} : forall k (l : list A), length k = length l -> length (compress k l) = length (filter (fun x => x) k).
Proof. induction k as [|b k IH]; intros [|x l] L; cbn in *; try discriminate; try reflexivity. destruct b; cbn; rewrite IH by lia; reflexivity. Qed.

Lemma masked_spec blocks points sm : length points = length (concat blocks) ->
  exists b, masked index_chunks blocks points sm = Some b /\ concat b = map (pixels_used sm) (compress points (concat blocks)).
Proof.
  intros L. unfold masked. rewrite L, Nat.eqb_refl.
  assert (G : forall b, concat b = compress points (concat blocks) -> exists b', (let? x := Some b in Some (match sm with None => x | Some k => map (map (compress (map negb k))) x end)) = Some b'
    /\ concat b' = map (pixels_used sm) (compress points (concat blocks))).
  { intros b E. cbn [bind]. eexists. split; [reflexivity|]. destruct sm as [k|]; unfold pixels_used; [now rewrite concat_map_blocks, E|now rewrite map_id]. }
  destruct (forallb _ points) eqn:A; apply G.
  - symmetry. now apply compress_all.
  - apply cut_concat. rewrite index_chunks_cover.
    + symmetry. now apply compress_length.
    + rewrite L. clear. induction blocks as [|b l IH]; [reflexivity|]. cbn. rewrite app_length, IH. reflexivity.
Qed.

(** A mask of points of another length than the map is refused if it leaves out any point. *)
Theorem C103_mask_of_other_size (blocks : list (list (list Pixel))) points sm rechunk kw : In false points -> length points <> length (concat blocks) ->
  prepare index_chunks auto blocks points sm rechunk kw = None.
Proof.
  intros F L. unfold prepare, masked. destruct (forallb (fun x => x) points) eqn:A.
  - rewrite forallb_forall in A. apply A in F. discriminate F.
  - rewrite (proj2 (Nat.eqb_neq _ _) L). reflexivity.
Qed.
Lemma prepare_spec blocks points sm rechunk kw ps kw' : length points = length (concat blocks) -> In true points ->
  prepare index_chunks auto blocks points sm rechunk kw = Some (ps, kw') ->
  prepared ps /\ concat ps = map (pixels_used sm) (compress points (concat blocks)).
Proof.
  intros L T H. unfold prepare in H. destruct (masked_spec blocks points sm L) as (b & Mb & E). rewrite Mb in H. cbn [bind] in H.
  assert (N : 1 <= length (concat b)).
  { rewrite E, map_length, compress_length by exact L. destruct (filter (fun x => x) points) eqn:F; cbn; [|lia].
    assert (X : In true (filter (fun x => x) points)) by (apply filter_In; auto). rewrite F in X. destruct X. }
  destruct ((length (concat b) =? largest b) && negb rechunk) eqn:K.
  - injection H as <- _. split; [|exact E]. apply andb_true_iff in K as (K & _). apply Nat.eqb_eq in K. split; [exact N|now left].
  - set (dd := match chunk_shape _ with Some _ => _ | None => _ end) in H. destruct (others dd); [discriminate|].
    destruct (get_chunking _ _ _ _ _) as [cs|] eqn:G; [|discriminate]. cbn [bind] in H. injection H as <- _.
    assert (B : exists c, 1 <= c /\ hd [] cs = blockdims (length (concat b)) c).
    { unfold get_chunking, normalize_chunks in G. cbn [repeat app] in G.
      destruct (match chunk_shape dd with Some c => c | None => None end) as [c|].
      - destruct c as [|c]; [discriminate|]. cbn in G. injection G as <-. exists (S c). split; [lia|reflexivity].
      - cbn [existsb orb] in G. cbn in G. injection G as <-. eexists. split; [|reflexivity]. apply auto_positive. }
    destruct B as (c & C & B). rewrite B. assert (Cc : concat (cut (blockdims (length (concat b)) c) (concat b)) = concat b) by (apply cut_concat; now apply blockdims_length).
    split; [|now rewrite Cc]. split; rewrite Cc; [exact N|]. right. exists c. split; [exact C|reflexivity].
Qed.

Lemma filter_length_le' {A} (f : A -> bool) l : length (filter f l) <= length l.
Proof. induction l as [|x l IH]; cbn; [lia|]. destruct (f x); cbn; lia. Qed.
Lemma refined_positions n (m : cmap (list Quat)) mask (patterns : list pattern) (pcs : list (list R)) points kept id : matching n m mask patterns pcs -> get_points m mask = Some (points, kept, id) ->
  length points = n /\ positions points = refined_points n m mask /\ In true points /\ (forall p, p < n -> nth p points false = true -> nth p (in_data m) false = true).
Proof.
  intros M G. pose proof (points_spec n m mask patterns pcs M) as PS. rewrite G in PS. destruct PS as (O & LP & LK & NT).
  split; [exact LP|]. split; [|split].
  - unfold refined_points, positions. rewrite LP. apply filter_ext_in'. intros p P. apply in_seq in P. apply NT. lia.
  - destruct O as (N1 & (p & P & Sc & Ph) & _). destruct (NT p P) as (_ & E). rewrite Sc, Ph in E. rewrite (proj2 (Z.eqb_neq _ _) N1) in E. cbn in E.
    rewrite <- E. apply nth_In. lia.
  - intros p P X. destruct (NT p P) as [_ E]. rewrite E in X. unfold in_scope in X. destruct (nth p (in_data m) false); [reflexivity|cbn in X; discriminate].
Qed.

Lemma rotations_used n (m : cmap (list Quat)) mask (patterns : list pattern) (pcs : list (list R)) points : matching n m mask patterns pcs -> length points = n ->
  (forall p, p < n -> nth p points false = true -> nth p (in_data m) false = true) ->
  used_rotations m points d = map (orientation_at m) (positions points).
Proof.
  intros (L1 & L2 & L3 & L4 & L5 & _) LP SUB. unfold used_rotations. rewrite compress_compress by lia.
  assert (B : both (in_data m) points = points).
  { apply nth_ext with (d := false) (d' := false); [rewrite both_length; lia|]. intros p P. rewrite both_length in P by lia. rewrite both_nth by lia.
    destruct (nth p points false) eqn:E; [|now rewrite andb_false_r]. now rewrite SUB by (auto; lia). }
  rewrite B, (positions_compress _ _ []) by lia. now rewrite map_map.
Qed.
Lemma centers_used n (m : cmap (list Quat)) mask (patterns : list pattern) (pcs : list (list R)) points : matching n m mask patterns pcs -> length points = n ->
  centers points pcs = map (center_at [] pcs) (positions points).
Proof.
  intros (L1 & L2 & L3 & L4 & L5 & _) LP.
  assert (C : centers points pcs = compress points (if length pcs =? 1 then repeat (nth 0 pcs []) n else pcs)).
  { unfold centers. destruct pcs as [|pc [|pc' pcs]]; cbn [length Nat.eqb nth]; [reflexivity| |reflexivity]. rewrite <- LP. symmetry. apply compress_repeat. }
  rewrite C, (positions_compress _ _ (nth 0 pcs [])) by (destruct (Nat.eqb_spec (length pcs) 1); [rewrite repeat_length; lia|lia]).
  apply map_ext_in. intros p P. apply in_positions in P as (P & _). unfold center_at. destruct (Nat.eqb_spec (length pcs) 1); [apply nth_repeat|]. apply nth_indep. lia.
Qed.
Lemma each_cut f cs l : each f (cut cs l) = cut cs (map (map f) l).
Proof. unfold each. symmetry. apply cut_map. Qed.
Lemma first_variant_cut cs l : first_variant (cut cs l) = cut cs (map (firstn 1) l).
Proof. unfold first_variant. symmetry. apply cut_map. Qed.
Lemma join_cut cs {A} (f g : A -> rows) (l : list A) :
  join (cut cs (map f l)) (cut cs (map g l)) = cut cs (map (fun p => map (fun vw => fst vw ++ snd vw) (combine (f p) (g p))) l).
Proof.
  assert (E : forall l : list A, combine (map f l) (map g l) = map (fun p => (f p, g p)) l) by (intros k; induction k; cbn; congruence).
  set (h := fun rs : rows * rows => map (fun vw => fst vw ++ snd vw) (combine (fst rs) (snd rs))).
  transitivity (map (map h) (cut cs (combine (map f l) (map g l)))); [unfold join; rewrite cut_combine, map_map; reflexivity|].
  rewrite E, <- cut_map, map_map. reflexivity.
Qed.
Lemma map_repeat_rows {A B} (f : A -> B) x n : map f (repeat x n) = repeat (f x) n.
Proof. induction n; cbn; congruence. Qed.

(** However patterns are chunked, before and after preparing them, refinement succeeds and returns the rows of the refined points in order: the
    row of a point is what the solver finds from the point's own pattern, orientations, PC and bounds. *)
Theorem C103_each_point_with_its_own : forall mode solve n m mask blocks pcs points kept id sm rechunk kw ps kw' ops trust,
  matching n m mask (concat blocks) pcs -> get_points m mask = Some (points, kept, id) ->
  prepare index_chunks auto blocks points sm rechunk kw = Some (ps, kw') ->
  (forall p r c l u, length (solve p r c l u) = value_size mode ops) ->
  refine mul euler numbers mode solve m d pcs points ops trust ps =
    Some (map (row_at mode solve m (concat blocks) pcs sm ops trust) (refined_points n m mask)).
Proof.
  intros mode solve n m mask blocks pcs points kept id sm rechunk kw ps kw' ops trust M G Pr V.
  destruct (refined_positions n m mask (concat blocks) pcs points kept id M G) as (LP & PQ & T & SUB).
  pose proof M as (_ & _ & _ & L4 & L5 & _).
  destruct (prepare_spec blocks points sm rechunk kw ps kw') as (Rd & Cp); [lia|exact T|exact Pr|].
  rewrite (positions_compress _ _ []), map_map, PQ in Cp by lia.
  pose proof (rotations_used n m mask (concat blocks) pcs points M LP SUB) as RU.
  pose proof (centers_used n m mask (concat blocks) pcs points M LP) as CU. rewrite PQ in RU, CU. set (Q := refined_points n m mask) in *.
  assert (LQ : length (concat ps) = length Q) by (rewrite Cp; apply map_length).
  pose proof (fun vs f args F => blocks_all vs f ps args Rd F) as BA. rewrite LQ, Cp in BA.
  unfold refine, from_rows, rotation_rows, pc_rows. rewrite with_variants_spec, RU, CU, !map_map, !map_length.
  destruct mode; cbn [fst snd].
  - rewrite !each_cut, !map_map. set (x := fun p => map euler (all_variants ops (orientation_at m p))). fold x.
    set (lo := fun y => fst (bound_constraints Ori y trust)). set (up := fun y => snd (bound_constraints Ori y trust)).
    destruct (Nat.ltb_spec 1 (length pcs)) as [U|U].
    + set (cr := fun p => repeat (center_at [] pcs p) _).
      rewrite (BA _ _ [map x Q; map (fun p => map lo (x p)) Q; map (fun p => map up (x p)) Q; map cr Q]) by (repeat constructor; apply map_length).
      rewrite (chunk_rows _ _ Q (fun p => pixels_used sm (nth p (concat blocks) [])) [x; (fun p => map lo (x p)); (fun p => map up (x p)); cr]); [|intros; apply V].
      f_equal. apply map_ext. intros p. unfold row_at, cr. cbn [map]. destruct ops; reflexivity.
    + rewrite (BA _ _ [map x Q; map (fun p => map lo (x p)) Q; map (fun p => map up (x p)) Q]) by (repeat constructor; apply map_length).
      rewrite (chunk_rows _ _ Q (fun p => pixels_used sm (nth p (concat blocks) [])) [x; (fun p => map lo (x p)); (fun p => map up (x p))]); [|intros; apply V].
      f_equal. apply map_ext_in. intros p P. unfold row_at. cbn [map].
      assert (E : firstn 1 pcs = [center_at [] pcs p]); [|now rewrite E].
      unfold center_at. destruct pcs as [|c [|c' pcs]]; cbn [length] in *; [|reflexivity|lia].
      exfalso. destruct Rd as (N & _). rewrite Cp, map_length in N. assert (length Q <= n) by (unfold Q, refined_points; rewrite <- (seq_length n 0) at 2; apply filter_length_le').
      lia.
  - rewrite !each_cut, !first_variant_cut, !map_map.
    set (lo := fun y => fst (bound_constraints Pc y trust)). set (up := fun y => snd (bound_constraints Pc y trust)).
    set (k := match ops with Some o => S (length o) | None => 1 end).
    set (fr := fun p => firstn 1 (map numbers (all_variants ops (orientation_at m p)))).
    set (fc := fun p => firstn 1 (repeat (center_at [] pcs p) k)).
    set (fl := fun p => firstn 1 (map lo (repeat (center_at [] pcs p) k))). set (fu := fun p => firstn 1 (map up (repeat (center_at [] pcs p) k))).
    rewrite (BA _ _ [map fr Q; map fc Q; map fl Q; map fu Q]) by (repeat constructor; apply map_length).
    rewrite (chunk_rows _ _ Q (fun p => pixels_used sm (nth p (concat blocks) [])) [fr; fc; fl; fu]); [|intros; apply V].
    f_equal. apply map_ext. intros p. unfold row_at, fr, fc, fl, fu, k. cbn [map]. destruct ops; reflexivity.
  - rewrite join_cut, !each_cut, !map_map.
    set (lo := fun y => fst (bound_constraints OriPc y trust)). set (up := fun y => snd (bound_constraints OriPc y trust)).
    set (k := match ops with Some o => S (length o) | None => 1 end).
    assert (J : forall p, map (fun vw => fst vw ++ snd vw) (combine (map euler (all_variants ops (orientation_at m p))) (repeat (center_at [] pcs p) k))
      = map (fun e => e ++ center_at [] pcs p) (map euler (all_variants ops (orientation_at m p)))).
    { intros p. assert (Lk : k = length (all_variants ops (orientation_at m p))) by (unfold k, all_variants; destruct ops; cbn; now rewrite ?map_length).
      rewrite Lk. generalize (all_variants ops (orientation_at m p)). intros l. induction l as [|a l IH]; cbn; [reflexivity|]. now rewrite IH. }
    rewrite (map_ext _ _ J), (map_ext _ _ (fun p => f_equal (map lo) (J p))), (map_ext _ _ (fun p => f_equal (map up) (J p))).
    set (x := fun p => map (fun e => e ++ center_at [] pcs p) (map euler (all_variants ops (orientation_at m p)))).
    rewrite (BA _ _ [map x Q; map (fun p => map lo (x p)) Q; map (fun p => map up (x p)) Q]) by (repeat constructor; apply map_length).
    rewrite (chunk_rows _ _ Q (fun p => pixels_used sm (nth p (concat blocks) [])) [x; (fun p => map lo (x p)); (fun p => map up (x p))]); [|intros; apply V].
    f_equal. apply map_ext. intros p. unfold row_at, x. cbn [map]. rewrite !map_map. f_equal.
    + apply map_ext. intros q. rewrite firstn_app, three_angles, firstn_all2 by now rewrite three_angles. cbn. apply app_nil_r.
    + apply map_ext. intros q. rewrite skipn_app, three_angles, skipn_all2 by now rewrite three_angles. reflexivity.
Qed.

(** With default options patterns are always prepared; with rechunking they are not if and only if the size of a chunk is given as zero, or an option
    is given that is not one of chunk_shape and chunk_bytes. *)
Definition bad_options (k : option kwargs) : Prop := match k with None => False | Some k => others k = true \/ chunk_shape k = Some (Some 0) end.
Lemma chunking_none f n q c : get_chunking f [n; q] 1 1 c = None <-> c = Some 0.
Proof.
  unfold get_chunking, normalize_chunks. destruct c as [[|c]|]; cbn; split; try discriminate; reflexivity.
Qed.
Theorem C103_prepared : forall (blocks : list (list pattern)) points sm kw, length points = length (concat blocks) -> In true points ->
  (prepare index_chunks auto blocks points sm true kw = None <-> bad_options kw)
  /\ (forall rechunk, ~ bad_options kw -> prepare index_chunks auto blocks points sm rechunk kw <> None).
Proof.
  intros blocks points sm kw L T. destruct (masked_spec blocks points sm L) as (b & Mb & E).
  assert (N : 1 <= length (concat b)).
  { rewrite E, map_length, compress_length by exact L. destruct (filter (fun x => x) points) eqn:F; cbn; [|lia].
    assert (X : In true (filter (fun x => x) points)) by (apply filter_In; auto). rewrite F in X. destruct X. }
  assert (Z : (if largest b =? length (concat b) then 64 else largest b) <> 0).
  { destruct (Nat.eqb_spec (largest b) (length (concat b))); [discriminate|]. intros Z. unfold largest in Z.
    assert (A : length (concat b) = 0); [|lia]. clear - Z. induction b as [|x b IH]; [reflexivity|]. cbn in *. rewrite app_length. lia. }
  assert (W : forall rechunk, (length (concat b) =? largest b) && negb rechunk = false -> (prepare index_chunks auto blocks points sm rechunk kw = None <-> bad_options kw)).
  { intros rechunk K. unfold prepare. rewrite Mb. cbn [bind]. rewrite K. unfold bad_options.
    destruct kw as [[[c|] by_ [|]]|]; cbn [others chunk_shape chunk_bytes].
    - split; [now left|reflexivity].
    - destruct (get_chunking _ _ _ _ c) eqn:G; cbn [bind].
      + split; [discriminate|]. intros [F|F]; [discriminate|]. injection F as ->. rewrite (proj2 (chunking_none _ _ _ _) eq_refl) in G. discriminate.
      + apply chunking_none in G. subst. split; [now right|reflexivity].
    - split; [now left|reflexivity].
    - destruct (get_chunking _ _ _ _ _) eqn:G; cbn [bind]; [split; [discriminate|intros [F|F]; discriminate]|]. apply chunking_none in G. injection G as G. contradiction.
    - destruct (get_chunking _ _ _ _ _) eqn:G; cbn [bind]; [split; [discriminate|intros []]|]. apply chunking_none in G. injection G as G. contradiction. }
  split; [apply W; now rewrite andb_false_r|]. intros rechunk B.
  destruct ((length (concat b) =? largest b) && negb rechunk) eqn:K; [|intros H; apply B, (W rechunk K), H].
  unfold prepare. rewrite Mb. cbn [bind]. now rewrite K.
Qed.
(** The rows are those that Model/RefinementResults.v stores at the points, where one pattern is refined after the other (C42 says where they end up). *)
Definition row_of (mode : mode) (solve : solver) (signal_mask : option (list bool)) (ops : option (list Quat)) (trust : option argument)
    (pattern : pattern) (rotations : list Quat) (c : list R) : list R :=
  row_at mode solve (Cmap [true] [0%Z] [rotations] [1]) [pattern] [c] signal_mask ops trust 0.
Theorem C103_as_one_by_one : forall mode solve n m mask blocks pcs points kept id sm rechunk kw ps kw' ops trust,
  matching n m mask (concat blocks) pcs -> get_points m mask = Some (points, kept, id) ->
  prepare index_chunks auto blocks points sm rechunk kw = Some (ps, kw') ->
  (forall p r c l u, length (solve p r c l u) = value_size mode ops) ->
  refine mul euler numbers mode solve m d pcs points ops trust ps = option_map fst (refine_centers m mask (concat blocks) pcs (row_of mode solve sm ops trust)).
Proof.
  intros mode solve n m mask blocks pcs points kept id sm rechunk kw ps kw' ops trust M G Pr V.
  rewrite (C103_each_point_with_its_own mode solve n m mask blocks pcs points kept id sm rechunk kw ps kw' ops trust M G Pr V).
  destruct (refine_centers m mask (concat blocks) pcs (row_of mode solve sm ops trust)) as [[res shape]|] eqn:E.
  - rewrite (C42_centers_in_order [] [] [] n m mask (concat blocks) pcs _ res shape M E). cbn [option_map fst]. f_equal.
  - unfold refine_centers in E. rewrite G in E. discriminate.
Qed.
End C103.
Print Assumptions C103_each_point_with_its_own.
Print Assumptions C103_prepared.

(** ** Rows of results are read as they were written *)
Definition given {Q} (ops : option (list Q)) : bool := match ops with Some _ => true | None => false end.
Theorem C103_columns : forall Q mode (ops : option (list Q)) s e x best, length x = nvars mode -> (mode = Pc -> ops = None) -> ops <> Some [] ->
  length (result_row ops s e x best) = value_size mode ops
  /\ (mode <> Pc -> read_orientation mode ops (result_row ops s e x best) = Some (OrientationResult s e (firstn 3 x) (if given ops then Some (INR best) else None)))
  /\ (mode <> Ori -> read_center mode (result_row ops s e x best) = skipn (match mode with OriPc => 3 | _ => 0 end) x).
Proof.
  intros Q mode ops s e x best L P E.
  assert (X : match mode with OriPc => exists a b c f g h, x = [a; b; c; f; g; h] | _ => exists a b c, x = [a; b; c] end).
  { destruct mode; cbn in L; destruct x as [|a [|b [|c [|f [|g [|h [|i x]]]]]]]; try discriminate; repeat eexists. }
  destruct ops as [[|o ops]|]; [now elim E| |]; destruct mode; try (specialize (P eq_refl); discriminate);
    destruct X as (a & b & c & X); try (destruct X as (f & g & h & X)); subst x; (split; [reflexivity|split; intros N; try reflexivity; now elim N]).
Qed.
(** An empty set of pseudo-symmetry operators: after everything is computed, reading the index of the best operator fails. *)
Theorem C103_no_operators_refuted : forall Q mode s e x best, length x = nvars mode -> mode <> Pc ->
  length (@result_row Q (Some []) s e x best) = value_size mode (@Some (list Q) []) /\ read_orientation mode (@Some (list Q) []) (result_row (@Some (list Q) []) s e x best) = None.
Proof.
  intros Q mode s e x best L P. destruct mode; cbn in L; [|now elim P|];
  destruct x as [|a [|b [|c [|f [|g [|h [|i x]]]]]]]; try discriminate; split; reflexivity.
Qed.

(** ** Chunk sizes and the options given by the caller *)
Section Options.
Context {Pixel : Type}.
Local Notation pattern := (list Pixel).
Variables (index_chunks : list nat -> list bool -> list nat) (auto : option nat -> list spec -> list nat -> nat -> nat).
Notation prepare := (prepare index_chunks auto).
Definition sizes (b : list (list pattern)) : list nat := map (@length pattern) b.
Definition all_points (b : list (list pattern)) : list bool := repeat true (length (concat b)).
Lemma all_true n : forallb (fun x : bool => x) (repeat true n) = true.
Proof. induction n; auto. Qed.
Lemma prepare_all b rechunk kw : prepare b (all_points b) None rechunk kw =
  let n := length (concat b) in
  if (n =? largest b) && negb rechunk then Some (b, kw)
  else
    let d := match kw with Some d => d | None => Kwargs None None false end in
    let d := match chunk_shape d with Some _ => d | None => Kwargs (Some (Some (if largest b =? n then 64 else largest b))) (chunk_bytes d) (others d) end in
    if others d then None
    else bind (get_chunking (auto (chunk_bytes d)) [n; length (hd [] (concat b))] 1 1 (match chunk_shape d with Some c => c | None => None end))
      (fun cs => Some (cut (hd [] cs) (concat b), match kw with Some _ => Some d | None => None end)).
Proof. unfold RefinementChunks.prepare, masked, all_points. now rewrite all_true. Qed.
Lemma chunking_size f n q c : 1 <= c -> get_chunking f [n; q] 1 1 (Some c) = Some [blockdims n c; [q]].
Proof. intros C. destruct c as [|c]; [lia|reflexivity]. Qed.
Lemma cut_blockdims_sizes (l : list pattern) c : 1 <= c -> map (@length pattern) (cut (blockdims (length l) c) l) = blockdims (length l) c.
Proof. intros C. apply cut_sizes. now apply blockdims_length. Qed.

(** By default patterns in one chunk are rechunked in chunks of 64. *)
Theorem C103_default_chunks : forall l : list pattern, 64 <= length l -> exists ps,
  prepare [l] (all_points [l]) None true None = Some (ps, None) /\ concat ps = l /\
  sizes ps = repeat 64 (length l / 64) ++ (if length l mod 64 =? 0 then [] else [length l mod 64]).
Proof.
  intros l N. rewrite prepare_all. cbn [concat negb]. rewrite app_nil_r, andb_false_r. unfold largest. cbn [map fold_right]. rewrite Nat.max_0_r, Nat.eqb_refl.
  cbn [chunk_shape others chunk_bytes]. rewrite chunking_size by lia. cbn [bind hd]. eexists. split; [reflexivity|].
  split; [apply cut_concat, blockdims_length; lia|]. unfold sizes. rewrite cut_blockdims_sizes by lia. unfold blockdims.
  destruct (Nat.eqb_spec (length l) 0); [lia|]. now replace (Nat.min 64 (length l)) with 64 by lia.
Qed.
(** The dictionary that a caller gives without a size of chunks has one after the call. *)
Theorem C103_callers_options_refuted : forall (l : list pattern) bytes, 1 <= length l -> exists ps,
  prepare [l] (all_points [l]) None true (Some (Kwargs None bytes false)) = Some (ps, Some (Kwargs (Some (Some 64)) bytes false)).
Proof.
  intros l bytes N. rewrite prepare_all. cbn [concat negb]. rewrite app_nil_r, andb_false_r. unfold largest. cbn [map fold_right]. rewrite Nat.max_0_r, Nat.eqb_refl.
  cbn [chunk_shape others chunk_bytes]. rewrite chunking_size by lia. eexists. reflexivity.
Qed.
(** A later call with the same dictionary uses the size of the earlier one: patterns in chunks of [c] are kept so with a new dictionary, but not with this. *)
Theorem C103_later_call_refuted : forall (l : list pattern) c bytes, 1 <= c < 64 -> 64 <= length l ->
  let b := cut (blockdims (length l) c) l in
  option_map (fun r => sizes (fst r)) (prepare b (all_points b) None true (Some (Kwargs None bytes false))) = Some (sizes b)
  /\ option_map (fun r => hd 0 (sizes (fst r))) (prepare b (all_points b) None true (Some (Kwargs (Some (Some 64)) bytes false))) = Some 64
  /\ hd 0 (sizes b) = c.
Proof.
  intros l c bytes C N b. assert (Cb : concat b = l) by (apply cut_concat, blockdims_length; lia).
  assert (Sb : sizes b = blockdims (length l) c) by (apply cut_blockdims_sizes; lia).
  assert (Lb : largest b = c) by (unfold largest; fold (sizes b); rewrite Sb, blockdims_max by lia; lia).
  assert (Hd : forall k, 1 <= k <= length l -> hd 0 (blockdims (length l) k) = k).
  { intros k K. unfold blockdims. destruct (Nat.eqb_spec (length l) 0); [lia|]. rewrite Nat.min_l by lia. assert (D : 1 <= length l / k) by (apply Nat.div_le_lower_bound; lia).
    now destruct (length l / k); [lia|]. }
  rewrite !prepare_all, Cb, Lb. cbn [negb]. rewrite andb_false_r. cbn [chunk_shape others chunk_bytes].
  destruct (Nat.eqb_spec c (length l)); [lia|]. rewrite !chunking_size by lia. cbn [bind option_map fst hd]. unfold sizes at 1 3. rewrite !cut_blockdims_sizes by lia.
  rewrite Sb. repeat split; [f_equal; apply Hd; lia|apply Hd; lia].
Qed.
(** A number of bytes per chunk has no effect, unless the size of chunks is explicitly given as None. *)
Theorem C103_bytes_refuted : forall (blocks : list (list pattern)) points sm rechunk bytes bytes' o,
  option_map fst (prepare blocks points sm rechunk (Some (Kwargs None bytes o))) = option_map fst (prepare blocks points sm rechunk (Some (Kwargs None bytes' o))).
Proof.
  intros. unfold RefinementChunks.prepare. destruct (masked _ _ _ _) as [b|]; [|reflexivity]. cbn [bind]. destruct (_ && _); [reflexivity|].
  cbn [chunk_shape others chunk_bytes]. destruct o; [reflexivity|]. match goal with |- context [if ?a then 64 else ?b] => set (c := if a then 64 else b) end. unfold get_chunking, normalize_chunks. destruct c; reflexivity.
Qed.
Theorem C103_bytes : forall (blocks : list (list pattern)) bytes, option_map (fun r => sizes (fst r)) (prepare blocks (all_points blocks) None true (Some (Kwargs (Some None) bytes false)))
  = Some (sizes (cut (blockdims (length (concat blocks)) (auto bytes [Auto; Whole] [length (concat blocks); length (hd [] (concat blocks))] 0)) (concat blocks))).
Proof. intros. rewrite prepare_all. cbn [negb]. rewrite andb_false_r. reflexivity. Qed.
(** Patterns in several chunks are rechunked, and the options used, also if rechunking is declined. *)
Theorem C103_declined_rechunking_refuted : forall (x y : pattern) (b b' : list pattern) c bytes, 1 <= c ->
  let blocks := [x :: b; y :: b'] in
  option_map (fun r => sizes (fst r)) (prepare blocks (all_points blocks) None false (Some (Kwargs (Some (Some c)) bytes false)))
  = Some (blockdims (length (concat blocks)) c).
Proof.
  intros x y b b' c bytes C blocks. rewrite prepare_all.
  assert (L : length (concat blocks) = S (length b) + S (length b')) by (unfold blocks; cbn [concat]; rewrite app_nil_r, app_length; reflexivity).
  assert (G : largest blocks = Nat.max (S (length b)) (S (length b'))) by (unfold largest, blocks; cbn [map fold_right length]; lia).
  assert (E : length (concat blocks) <> largest blocks) by lia. cbv zeta. rewrite (proj2 (Nat.eqb_neq _ _) E). cbn [andb negb chunk_shape others chunk_bytes].
  rewrite chunking_size by lia. cbn [bind option_map fst hd]. f_equal. exact (cut_blockdims_sizes (concat blocks) c C).
Qed.
End Options.

(** ** Five points, one not indexed and one masked, in chunks of 2, 2 and 1; two orientations per point; one pseudo-symmetry operator *)
Definition ex_map : cmap (list nat) := Cmap (repeat true 5) [0; 0; -1; 0; 0]%Z [[10; 1]; [20; 1]; [30; 1]; [40; 1]; [50; 1]] [5].
Definition ex_blocks : list (list (list nat)) := [[[1; 2]; [3; 4]]; [[5; 6]; [7; 8]]; [[9; 10]]].
Definition ex_mask : option (list bool) := Some [true; false; false; false; false].
Definition ex_index (sizes : list nat) (points : list bool) : list nat := [length (filter (fun x => x) points)].
Lemma ex_index_ok sizes points : length points = axis_length sizes -> axis_length (ex_index sizes points) = length (filter (fun x => x) points).
Proof. intros _. unfold ex_index, axis_length. cbn. lia. Qed.
Example ex_matching : matching 5 ex_map ex_mask (concat ex_blocks) [[1%R; 2%R; 3%R]].
Proof. repeat split; try reflexivity. now left. Qed.
Example ex_other_size : In false [true; false; true] /\ length [true; false; true] <> length (concat ex_blocks).
Proof. split; [right; now left|discriminate]. Qed.
Example ex_points : get_points ex_map ex_mask = Some ([false; true; false; true; true], [false; true; true; true; true], 0%Z).
Proof. reflexivity. Qed.
Example ex_prepare : prepare ex_index (fun _ _ _ _ => 7) ex_blocks [false; true; false; true; true] (Some [false; true]) true (Some (Kwargs (Some (Some 2)) None false))
  = Some ([[[3]; [7]]; [[9]]], Some (Kwargs (Some (Some 2)) None false)).
Proof. reflexivity. Qed.
Definition ex_solve : solver := fun p r _ _ _ => [INR (hd 0 p); hd 0%R (hd [] r); 0%R; 0%R; 0%R; 1%R].
Example ex_rows : let e := fun q : nat => [INR q; 0%R; 0%R] in
  refine Nat.mul e e Ori ex_solve ex_map 0 [[1%R; 2%R; 3%R]] [false; true; false; true; true] (Some [2]) None [[[3]; [7]]; [[9]]]
  = Some [[INR 3; INR 20; 0%R; 0%R; 0%R; 1%R]; [INR 7; INR 40; 0%R; 0%R; 0%R; 1%R]; [INR 9; INR 50; 0%R; 0%R; 0%R; 1%R]].
Proof. reflexivity. Qed.
