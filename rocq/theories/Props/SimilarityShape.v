(** C108: the shape of orientation similarity maps, and for which crystal maps there is one. *)
From Coq Require Import String List Arith ZArith QArith Bool Lia Permutation.
From Verif Require Import Model.Binary Model.SimilarityShape Spec.Merging Spec.MapPlaces Spec.SharedIndices.
From Verif Require Model.SimilarityMap Props.SimilarityMap Model.MergeMaps Model.MergeInputs Props.MergeInputs.
Import ListNotations.
Local Open Scope nat_scope.

(** ** Lemmas *)

Lemma unsqueeze_squeeze s : forall idx, in_shape s idx -> unsqueeze s (squeeze_index s idx) = idx.
Proof.
  induction s as [|n s IH]; intros [|i idx] H; cbn in *; try contradiction; [reflexivity|]. destruct H as [H1 H2].
  destruct (Nat.eqb_spec n 1) as [->|N]; [|now rewrite IH]. rewrite IH by exact H2. f_equal. lia.
Qed.
Lemma not_raises l k r c : raises l = false -> k < length l -> r < length (nth k l []) -> c < length (nth r (nth k l []) []) ->
  nth c (nth r (nth k l []) []) None = Some (entry l [r; c; k]).
Proof.
  intros H K R C. cbn [entry]. destruct (nth c _ None) as [v|] eqn:E; [reflexivity|]. exfalso. revert H. unfold raises. apply not_false_iff_true, existsb_exists.
  exists (nth k l []). split; [apply nth_In; exact K|]. apply existsb_exists. eexists. split; [apply nth_In; exact R|]. apply existsb_exists. eexists. split; [apply nth_In; exact C|]. rewrite E. reflexivity.
Qed.
Lemma layers_sizes ny nx keep t n nm fr fp ci l : SimilarityMap.orientation_similarity_map ny nx keep t n nm fr fp ci = Some l ->
  forall k, k < length l -> length (nth k l []) = ny /\ forall r, r < ny -> length (nth r (nth k l []) []) = nx.
Proof.
  unfold SimilarityMap.orientation_similarity_map. cbv zeta. destruct (_ <? _); [discriminate|]. destruct (_ <? _); [discriminate|]. intros H. injection H as <-. intros k K.
  rewrite map_length, seq_length in K.
  match goal with |- context [nth k (map ?f ?l) []] => rewrite (nth_indep _ [] (f 0)) by (rewrite map_length, seq_length; exact K); rewrite (map_nth f l 0 k), seq_nth by exact K end. unfold SimilarityMap.layer. cbv zeta. split; [now rewrite map_length, seq_length|]. intros r R.
  match goal with |- context [nth r (map ?f ?l) []] => rewrite (nth_indep _ [] (f 0)) by (rewrite map_length, seq_length; exact R); rewrite (map_nth f l 0 r), seq_nth by exact R end. now rewrite map_length, seq_length.
Qed.

(** ** Theorems *)

Definition product (s : list nat) : nat := fold_right Nat.mul 1 s.
Definition best_number (n_best : option nat) (keep : nat) : nat := match n_best with None => keep | Some n => n end.
(** One map per number of indices from from_n_best, by default only one. *)
Definition layers_asked (n_best from : option nat) (keep : nat) : nat := S (best_number n_best keep) - match from with None => best_number n_best keep | Some n => n end.

(** The entries are those of C04, the axes rows, columns and numbers of indices, of which those of length 1 are removed. *)
Theorem C108_entries ny nx keep table n_best norm from fp ci a : similarity_array [ny; nx] [ny * nx; keep] table n_best norm from fp ci = Some a ->
  exists layers, SimilarityMap.orientation_similarity_map ny nx keep table n_best norm from fp ci = Some layers /\
    length layers = layers_asked n_best from keep /\ a_shape a = squeeze_shape [ny; nx; layers_asked n_best from keep] /\
    forall r c k, r < ny -> c < nx -> k < layers_asked n_best from keep ->
      Props.SimilarityMap.value layers k r c = Some (a_at a (squeeze_index [ny; nx; layers_asked n_best from keep] [r; c; k])).
Proof.
  unfold similarity_array. destruct (negb _); [discriminate|]. cbv zeta. destruct (SimilarityMap.orientation_similarity_map _ _ _ _ _ _ _ _ _) as [l|] eqn:E; [|discriminate]. cbn [bind].
  destruct (raises l) eqn:R; [discriminate|]. intros H. injection H as <-. exists l. split; [reflexivity|].
  assert (L : length l = layers_asked n_best from keep).
  { unfold SimilarityMap.orientation_similarity_map in E. cbv zeta in E. destruct (_ <? _); [discriminate|]. destruct (_ <? _); [discriminate|]. injection E as <-. rewrite map_length, seq_length. unfold layers_asked, best_number. rewrite Nat.add_1_r. reflexivity. }
  split; [exact L|]. cbn [squeezed a_shape a_at app]. rewrite L. split; [reflexivity|]. intros r c k Hr Hc Hk. rewrite unsqueeze_squeeze by (cbn; auto).
  unfold Props.SimilarityMap.value. destruct (layers_sizes _ _ _ _ _ _ _ _ _ _ E k) as [S1 S2]; [lia|]. apply not_raises; [exact R|lia|lia|rewrite S2; lia].
Qed.
(** So the array has rows, columns and layers if there are at least two of each ... *)
Theorem C108_shape_of_layers ny nx keep table n_best norm from fp ci a : similarity_array [ny; nx] [ny * nx; keep] table n_best norm from fp ci = Some a ->
  (a_shape a = [ny; nx; layers_asked n_best from keep] <-> ny <> 1 /\ nx <> 1 /\ layers_asked n_best from keep <> 1).
Proof.
  intros H. destruct (C108_entries _ _ _ _ _ _ _ _ _ _ H) as (l & _ & _ & -> & _). unfold squeeze_shape. cbn [filter]. set (L := layers_asked _ _ _).
  destruct (Nat.eqb_spec ny 1), (Nat.eqb_spec nx 1), (Nat.eqb_spec L 1); cbn [negb]; split; intros X; try tauto; try (apply (f_equal (@length _)) in X; cbn in X; lia); try reflexivity.
Qed.
(** ... and by default the shape of the map if and only if it has more than one row and more than one column. *)
Theorem C108_shape_of_map_refuted ny nx keep table n_best norm fp ci a : similarity_array [ny; nx] [ny * nx; keep] table n_best norm None fp ci = Some a ->
  (a_shape a = [ny; nx] <-> ny <> 1 /\ nx <> 1).
Proof.
  intros H. destruct (C108_entries _ _ _ _ _ _ _ _ _ _ H) as (l & _ & _ & -> & _). unfold squeeze_shape, layers_asked. cbn [filter]. replace (S (best_number n_best keep) - best_number n_best keep) with 1 by lia. cbn [Nat.eqb negb].
  destruct (Nat.eqb_spec ny 1), (Nat.eqb_spec nx 1); cbn [negb]; split; intros X; try tauto; try (apply (f_equal (@length _)) in X; cbn in X; lia); try reflexivity.
Qed.
(** Line scans are refused. *)
Theorem C108_line_scan_refuted nx prop table n_best norm fp ci : similarity_array [nx] prop table n_best norm None fp ci = None.
Proof.
  unfold similarity_array. destruct prop as [|a [|b [|c p]]]; try reflexivity. destruct (negb _); [reflexivity|]. cbv zeta. destruct (SimilarityMap.orientation_similarity_map _ _ _ _ _ _ _ _ _) as [l|] eqn:E; [|reflexivity]. cbn [bind].
  destruct (raises l); [reflexivity|]. unfold SimilarityMap.orientation_similarity_map in E. cbv zeta in E. destruct (_ <? _); [discriminate|]. destruct (_ <? _); [discriminate|]. injection E as <-.
  rewrite map_length, seq_length. match goal with |- context [?a + 1 - ?a] => replace (a + 1 - a) with 1 by lia end. reflexivity.
Qed.
(** So are maps with one index per point without an axis for it, which dictionary_indexing() with keep_n=1 and a mask returns. *)
Theorem C108_one_index_refuted shape n table n_best norm from fp ci : similarity_array shape [n] table n_best norm from fp ci = None.
Proof. reflexivity. Qed.

(** Maps of two dimensions are accepted if and only if they have as many points as their rectangle, n_best is not greater than the number
    of indices, from_n_best not greater than n_best + 1, and center_index is one of the points of the footprint. *)
Theorem C108_accepted_iff ny nx size keep table n_best norm from fp ci : 1 <= ny -> 1 <= nx -> 1 <= layers_asked n_best from keep ->
  (similarity_array [ny; nx] [size; keep] table n_best norm from fp ci <> None <->
   ny * nx = size /\ best_number n_best keep <= keep /\ ci < length (SimilarityMap.offsets (match fp with None => SimilarityMap.default_footprint | Some f => f end))).
Proof.
  intros Y X L. unfold similarity_array. cbn [fold_right]. rewrite Nat.mul_1_r. destruct (Nat.eqb_spec (ny * nx) size) as [E|E]; cbn [negb]; [|split; [congruence|intros [? _]; contradiction]]. cbv zeta.
  unfold SimilarityMap.orientation_similarity_map. cbv zeta. fold (best_number n_best keep). destruct (Nat.ltb_spec keep (best_number n_best keep)) as [N|N]; [cbn [bind]; split; [congruence|intros (_ & ? & _); lia]|].
  unfold layers_asked in L. set (fr := match from with None => _ | Some n => n end) in *. replace (match from with Some n => n | None => best_number n_best keep end) with fr by (unfold fr; destruct from; reflexivity).
  destruct (Nat.ltb_spec (best_number n_best keep + 1) fr) as [F|F]; [lia|]. cbn [bind]. set (fo := match fp with Some f => f | None => _ end).
  match goal with |- context [raises ?l] => set (ls := l) end.
  assert (RA : raises ls = true <-> length (SimilarityMap.offsets fo) <= ci).
  { unfold raises, ls. rewrite existsb_exists. split.
    - intros (la & I & H). apply in_map_iff in I as (i & <- & _). apply existsb_exists in H as (ro & I & H). apply in_map_iff in I as (r & <- & _). apply existsb_exists in H as (v & I & H). apply in_map_iff in I as (c & <- & _).
      unfold SimilarityMap.per_pixel in H. destruct (nth_error _ ci) eqn:NE; [discriminate|]. apply nth_error_None in NE. unfold SimilarityMap.picked in NE. now rewrite map_length in NE.
    - intros H. eexists. split; [apply in_map; apply in_seq; split; [apply Nat.le_0_l|]; instantiate (1 := 0); lia|]. apply existsb_exists. eexists. split; [apply in_map; apply in_seq; split; [apply Nat.le_0_l|]; instantiate (1 := 0); lia|].
      apply existsb_exists. eexists. split; [apply in_map; apply in_seq; split; [apply Nat.le_0_l|]; instantiate (1 := 0); lia|]. unfold SimilarityMap.per_pixel.
      match goal with |- context [nth_error ?l ci] => assert (NE : nth_error l ci = None) by (apply nth_error_None; unfold SimilarityMap.picked; rewrite map_length; exact H); rewrite NE end. reflexivity. }
  destruct (raises ls) eqn:R; [split; [congruence|intros (_ & _ & Q); assert (length (SimilarityMap.offsets fo) <= ci) by (apply RA; reflexivity); fold fo in Q; lia]|].
  split; [intros _|congruence]. split; [exact E|]. split; [exact N|]. fold fo. destruct (Nat.lt_ge_cases ci (length (SimilarityMap.offsets fo))) as [Q|Q]; [exact Q|]. apply RA in Q. congruence.
Qed.

(** *** Cut maps *)

Definition sims_of {A} (m : MergeInputs.cmap A) : list (list Z) := map MergeMaps.sims (MergeInputs.points m).
Lemma filter_all (l : list bool) : length (filter (fun b => b) l) = length l <-> forall b, In b l -> b = true.
Proof.
  induction l as [|b l IH]; [cbn; split; [intros _ b []|reflexivity]|]. cbn. assert (LE : length (filter (fun b => b) l) <= length l) by (clear; induction l as [|b l IH]; cbn; [lia|]; destruct b; cbn; lia).
  destruct b; cbn; split.
  - intros H x [<-|X]; [reflexivity|]. apply IH; [lia|exact X].
  - intros H. f_equal. apply IH. intros x X. apply H. now right.
  - intros H. lia.
  - intros H. discriminate (H false (or_introl eq_refl)).
Qed.
Definition box {A} (m : MergeInputs.cmap A) r0 h c0 w : list bool := flat_map (fun r => map (fun c => nth (r * columns (MergeInputs.shape m) + c) (MergeInputs.in_data m) false) (seq c0 w)) (seq r0 h).
Lemma box_count {A} (m : MergeInputs.cmap A) r0 h c0 w : Props.MergeInputs.valid m -> rectangle (MergeInputs.shape m) (MergeInputs.in_data m) r0 h c0 w ->
  length (MergeInputs.points m) = length (filter (fun b => b) (box m r0 h c0 w)).
Proof.
  intros V Rec. pose proof V as (_ & L & ->). unfold box. set (W := columns (MergeInputs.shape m)) in *. set (D := MergeInputs.in_data m) in *.
  set (B := flat_map _ _). destruct (Props.MergeInputs.rectangle_inside _ _ _ _ _ _ Rec) as [I1 I2]. fold W in I2.
  assert (LB : length B = h * w) by apply Props.MergeInputs.box_length.
  assert (NB : forall r c, r < h -> c < w -> nth (r * w + c) B false = nth ((r0 + r) * W + (c0 + c)) D false) by (intros; apply Props.MergeInputs.box_nth; assumption).
  rewrite <- (firstn_all B), <- (firstn_all D), !Props.MergeInputs.count_firstn. rewrite LB.
  destruct Rec as (Rec & Rec').
  set (orig := fun p => (r0 + p / w) * W + (c0 + p mod w)).
  assert (dm : forall p, p < h * w -> p / w < h /\ p mod w < w /\ p = p / w * w + p mod w).
  { intros p P. assert (w <> 0) by lia. pose proof (Nat.div_mod p w H). pose proof (Nat.mod_upper_bound p w H). assert (p / w < h) by (apply Nat.div_lt_upper_bound; nia). lia. }
  assert (mono : forall p q, q < h * w -> p < q -> orig p < orig q).
  { intros p q Q P. destruct (dm p ltac:(lia)) as (P1 & P2 & P3), (dm q Q) as (Q1 & Q2 & Q3). unfold orig.
    assert (p / w <= q / w) by (apply Nat.div_le_mono; lia). destruct (Nat.eq_dec (p / w) (q / w)) as [E|E]; [rewrite E in *; lia|]. assert (p / w + 1 <= q / w) by lia. nia. }
  symmetry. rewrite <- (map_length orig). apply Permutation_length, NoDup_Permutation.
  - assert (ND : NoDup (filter (fun k => nth k B false) (seq 0 (h * w)))) by (apply NoDup_filter, seq_NoDup).
    assert (Q : forall x, In x (filter (fun k => nth k B false) (seq 0 (h * w))) -> x < h * w) by (intros x X; apply filter_In in X as [X _]; apply in_seq in X; lia).
    revert ND Q. generalize (filter (fun k => nth k B false) (seq 0 (h * w))). induction l as [|x l IH]; intros ND Q; [constructor|]. inversion ND; subst. cbn. constructor.
    + intros X. apply in_map_iff in X as (y & E & Y). assert (x <> y) by congruence. destruct (lt_eq_lt_dec x y) as [[Z|Z]|Z]; [|contradiction|].
      * pose proof (mono x y (Q y (or_intror Y)) Z). lia.
      * pose proof (mono y x (Q x (or_introl eq_refl)) Z). lia.
    + apply IH; [assumption|]. intros z Z. apply Q. now right.
  - apply NoDup_filter, seq_NoDup.
  - intros x. rewrite in_map_iff, filter_In, in_seq. split.
    + intros (q & <- & X). apply filter_In in X as [X N]. apply in_seq in X. destruct (dm q ltac:(lia)) as (Q1 & Q2 & Q3).
      split; [unfold orig; split; [apply Nat.le_0_l|]; cbn; rewrite L; nia|]. rewrite Q3, NB in N by assumption. exact N.
    + intros [[_ X] N]. cbn in X.
      assert (K : In x (MergeInputs.positions m)) by (unfold MergeInputs.positions; apply filter_In; split; [apply in_seq; fold D; lia|exact N]).
      apply Props.MergeInputs.in_positions in K as [K _]; [|exact V]. fold W D in K. fold W D in Rec. pose proof (Rec _ _ K) as [K1 K2]. destruct K as (_ & Kc & _). fold W in Kc.
      pose proof (Nat.div_mod x W ltac:(lia)) as DM. exists ((x / W - r0) * w + (x mod W - c0)).
      assert (E : orig ((x / W - r0) * w + (x mod W - c0)) = x).
      { unfold orig. rewrite Nat.div_add_l, (Nat.div_small (x mod W - c0) w) by lia. rewrite (Nat.add_comm ((x / W - r0) * w)), Nat.mod_add, (Nat.mod_small (x mod W - c0) w) by lia.
        replace (r0 + (x / W - r0 + 0)) with (x / W) by lia. replace (c0 + (x mod W - c0)) with (x mod W) by lia. lia. }
      split; [exact E|]. apply filter_In. split; [apply in_seq; split; [apply Nat.le_0_l|]; cbn; nia|].
      rewrite NB by lia. rewrite <- N. f_equal. replace (r0 + (x / W - r0)) with (x / W) by lia. replace (c0 + (x mod W - c0)) with (x mod W) by lia. lia.
Qed.
(** A map cut out of a larger one, with all points of its rectangle: each point is compared with the neighbours it has there.
    [C04] says what the entries are in terms of the rows of the table of indices. *)
Theorem C108_cut_map {A} (m : MergeInputs.cmap A) r0 h c0 w r c pt : Props.MergeInputs.valid m -> rectangle (MergeInputs.shape m) (MergeInputs.in_data m) r0 h c0 w ->
  (forall r c, r < h -> c < w -> is_kept (MergeInputs.shape m) (MergeInputs.in_data m) (r0 + r) (c0 + c)) -> r < h -> c < w ->
  (nth_error (MergeInputs.points m) (r * w + c) = Some pt <-> stored_at (MergeInputs.shape m) (MergeInputs.in_data m) (MergeInputs.points m) (r0 + r) (c0 + c) = Some pt)
  /\ length (MergeInputs.points m) = h * w.
Proof.
  intros V Rec Full Hr Hc. rewrite <- (Props.MergeInputs.box_entry m r0 h c0 w r c V Rec Hr Hc). set (B := flat_map _ _).
  assert (LB : length B = h * w) by apply Props.MergeInputs.box_length.
  assert (T : forall b, In b B -> b = true).
  { intros b I. apply in_flat_map in I as (y & Y & I). apply in_map_iff in I as (x & <- & X). apply in_seq in Y, X. destruct (Full (y - r0) (x - c0)) as (_ & _ & K); [lia|lia|]. replace (r0 + (y - r0)) with y in K by lia. replace (c0 + (x - c0)) with x in K by lia. exact K. }
  assert (P : r * w + c < length B) by nia.
  split.
  - unfold entry_at. rewrite Props.MergeInputs.nth_negb by exact P. rewrite (T (nth (r * w + c) B false)) by (apply nth_In; exact P). cbn [negb]. rewrite firstn_map.
    assert (Q : forall l, (forall b, In b l -> b = true) -> length (filter negb (map negb l)) = length l).
    { induction l as [|b l IH]; intros Tl; [reflexivity|]. cbn. rewrite (Tl b (or_introl eq_refl)). cbn. f_equal. apply IH. intros x X. apply Tl. now right. }
    rewrite Q, firstn_length, Nat.min_l; [reflexivity|lia|]. intros b I. apply T. rewrite <- (firstn_skipn (r * w + c) B). apply in_or_app. now left.
  - rewrite <- LB. apply filter_all in T. rewrite <- T. apply box_count; assumption.
Qed.
(** A map with a point left out inside its rectangle is refused. *)
Theorem C108_points_left_out_refuted {A} (m : MergeInputs.cmap A) r0 h c0 w r c keep n_best norm from fp ci : Props.MergeInputs.valid m -> rectangle (MergeInputs.shape m) (MergeInputs.in_data m) r0 h c0 w ->
  r < h -> c < w -> ~ is_kept (MergeInputs.shape m) (MergeInputs.in_data m) (r0 + r) (c0 + c) ->
  similarity_array (of_dimensions (MergeInputs.shape m) h w) [length (MergeInputs.points m); keep] (sims_of m) n_best norm from fp ci = None.
Proof.
  intros V Rec Hr Hc NK. assert (N : length (MergeInputs.points m) <> h * w).
  { rewrite (box_count m r0 h c0 w V Rec). intros E. apply NK. destruct (Props.MergeInputs.rectangle_inside _ _ _ _ _ _ Rec) as [I1 I2]. split; [lia|]. split; [lia|].
    rewrite <- (Props.MergeInputs.box_nth (MergeInputs.in_data m) (columns (MergeInputs.shape m)) c0 w h r0 r c Hr Hc). assert (LB := Props.MergeInputs.box_length (MergeInputs.in_data m) (columns (MergeInputs.shape m)) c0 w h r0). fold (box m r0 h c0 w) in *.
    rewrite <- LB in E. apply (proj1 (filter_all _) E). apply nth_In. rewrite LB. nia. }
  unfold similarity_array. assert (P : fold_right Nat.mul 1 (of_dimensions (MergeInputs.shape m) h w) = h * w).
  { destruct V as (D & _). destruct (Props.MergeInputs.rectangle_inside _ _ _ _ _ _ Rec) as [I1 I2]. unfold of_dimensions. destruct (MergeInputs.shape m) as [|a [|b l]]; cbn in *; [lia|assert (h = 1) as -> by lia; lia|lia]. }
  rewrite P. destruct (Nat.eqb_spec (h * w) (length (MergeInputs.points m))); [congruence|]. reflexivity.
Qed.

(** ** Examples *)

Module Examples.
Definition table : list (list Z) := [[1; 2]; [2; 3]; [3; 4]]%Z.
(** One row of three points: an array of three entries. *)
Example one_row : exists a, similarity_array [1; 3] [3; 2] table None false None None 2 = Some a /\ a_shape a = [3] /\ a_at a [1] = Some (2 / 2)%Q.
Proof. eexists. split; [reflexivity|]. split; reflexivity. Qed.
Example two_rows : exists a, similarity_array [2; 3] [6; 2] (table ++ table) None false (Some 1) None 2 = Some a /\ a_shape a = [2; 3; 2]. Proof. eexists. split; reflexivity. Qed.
Example refused : similarity_array [1; 3] [3; 2] table None false None None 5 = None /\ similarity_array [2; 2] [3; 2] table None false None None 2 = None. Proof. split; reflexivity. Qed.
Definition pt (l : list Z) : MergeMaps.point unit := MergeMaps.Point tt [] l 0%Z.
Definition cut : MergeInputs.cmap unit := MergeInputs.CMap [2; 3] [false; true; true; false; true; true] (map pt [[1; 2]; [2; 3]; [3; 4]; [4; 5]]%Z) (MergeMaps.Phase "a"%string 1) 2 1 1 "um"%string.
Definition holed : MergeInputs.cmap unit := MergeInputs.CMap [2; 3] [false; true; true; false; false; true] (map pt [[1; 2]; [2; 3]; [3; 4]]%Z) (MergeMaps.Phase "a"%string 1) 2 1 1 "um"%string.
Example cut_valid : Props.MergeInputs.valid cut /\ rectangle (MergeInputs.shape cut) (MergeInputs.in_data cut) 0 2 1 2 /\
  forall r c, r < 2 -> c < 2 -> is_kept (MergeInputs.shape cut) (MergeInputs.in_data cut) (0 + r) (1 + c).
Proof.
  split; [repeat split; auto|]. split.
  - split; [intros r c (R & C & K); cbn in R, C; destruct r as [|[|r]]; try lia; destruct c as [|[|[|c]]]; try lia; discriminate K|].
    repeat split; try lia; (exists 1; repeat split; cbn; lia).
  - intros r c R C. destruct r as [|[|r]]; try lia; destruct c as [|[|c]]; try lia; repeat split; cbn; lia.
Qed.
Example holed_valid : Props.MergeInputs.valid holed /\ rectangle (MergeInputs.shape holed) (MergeInputs.in_data holed) 0 2 1 2 /\ ~ is_kept (MergeInputs.shape holed) (MergeInputs.in_data holed) (0 + 1) (1 + 0).
Proof.
  split; [repeat split; auto|]. split; [|intros (_ & _ & K); discriminate K].
  split; [intros r c (R & C & K); cbn in R, C; destruct r as [|[|r]]; try lia; destruct c as [|[|[|c]]]; try lia; discriminate K|].
  repeat split; try lia; first [(exists 1; repeat split; cbn; lia)|(exists 2; repeat split; cbn; lia)|(exists 0; repeat split; cbn; lia)].
Qed.
End Examples.

Print Assumptions C108_entries.
Print Assumptions C108_accepted_iff.
Print Assumptions C108_points_left_out_refuted.
