(** C49: crystal maps from Hough indexing results. *)
From Coq Require Import List Arith ZArith Bool Lia.
From Verif Require Import Model.Binary Model.HoughData.
Import ListNotations.
Local Open Scope Z_scope.

Section C.
Context {Quat Other : Type} (identity : Quat).
Notation entry := (entry Quat Other). Notation results := (results Quat Other).

(** The row chosen by data_index: the last one for -1. *)
Definition chosen (data : results) (index : Z) : option (list entry) :=
  if index =? -1 then nth_error data (length data - 1) else if index <? 0 then None else nth_error data (Z.to_nat index).
(** Documented values at one point. *)
Definition rotation_at (e : entry) : Quat := if phase e =? -1 then identity else quat e.

Lemma reset_phase : forall e : entry, phase (reset identity e) = phase e.
Proof. intros e. unfold reset. destruct (phase e =? -1); reflexivity. Qed.
Lemma reset_other : forall e : entry, other (reset identity e) = other e.
Proof. intros e. unfold reset. destruct (phase e =? -1); reflexivity. Qed.
Lemma reset_quat : forall e : entry, quat (reset identity e) = rotation_at e.
Proof. intros e. unfold reset, rotation_at. destruct (phase e =? -1); reflexivity. Qed.
Lemma reset_twice : forall e : entry, reset identity (reset identity e) = reset identity e.
Proof. intros e. unfold reset. destruct (phase e =? -1) eqn:E; cbn [phase]; rewrite E; reflexivity. Qed.

Lemma set_row_nth : forall (d : results) i r j, nth_error (set_row d i r) j =
  if (j =? i)%nat then match nth_error d i with None => None | Some _ => Some r end else nth_error d j.
Proof.
  induction d as [|x d IH]; intros i r j.
  - cbn [set_row]. destruct i, j; cbn [nth_error Nat.eqb]; try reflexivity. destruct (j =? i)%nat; reflexivity.
  - destruct i as [|i]; cbn [set_row]; destruct j as [|j]; cbn [nth_error Nat.eqb]; try reflexivity. apply IH.
Qed.
Lemma set_row_length : forall (d : results) i r, length (set_row d i r) = length d.
Proof. induction d as [|x d IH]; intros [|i] r; cbn [set_row length]; auto. Qed.

(** What a successful call used. Non-negative phase IDs, as in orix except for not indexed points. *)
Lemma success : forall data ids index n x data', Forall (fun p => 0 <= p) ids ->
  xmap_from_data identity data ids index n = Some (x, data') ->
  exists i row, nth_error data i = Some row /\ chosen data index = Some row /\ (index = -1 \/ In index ids) /\
    py_index (length data) index = Some i /\
    x = Xmap (map rotation_at row) (map phase row) (map other row) /\ data' = set_row data i (map (reset identity) row).
Proof.
  intros data ids index n x data' IDS. unfold xmap_from_data. destruct (2 <? n)%nat; [discriminate|].
  destruct (negb (index =? -1) && negb (existsb (Z.eqb index) ids)) eqn:G; [discriminate|].
  assert (I : index = -1 \/ In index ids).
  { apply andb_false_iff in G as [G|G]; apply negb_false_iff in G.
    - left. now apply Z.eqb_eq.
    - right. apply existsb_exists in G as (j & J & E). apply Z.eqb_eq in E. now subst j. }
  destruct (py_index (length data) index) as [i|] eqn:P; [|discriminate]. cbn [bind].
  destruct (nth_error data i) as [row|] eqn:R; [|discriminate]. cbn [bind]. intros [= <- <-].
  exists i, row. split; [exact R|]. split; [|split; [exact I|split; [reflexivity|split; [|reflexivity]]]].
  - unfold chosen. unfold py_index in P. destruct I as [->|I].
    + change (0 <=? -1) with false in P. change (-1 <? 0) with true in P. cbn [andb] in P.
      destruct (- Z.of_nat (length data) <=? -1) eqn:L; [|discriminate].
      injection P as <-. rewrite <- R. change ((-1 =? -1)) with true. cbv iota. f_equal. apply Z.leb_le in L. lia.
    + rewrite Forall_forall in IDS. apply IDS in I.
      replace (index =? -1) with false by (symmetry; apply Z.eqb_neq; lia).
      replace (index <? 0) with false by (symmetry; apply Z.ltb_ge; lia).
      replace (0 <=? index) with true in P by (symmetry; apply Z.leb_le; lia).
      replace (index <? 0) with false in P by (symmetry; apply Z.ltb_ge; lia). cbn [andb] in P.
      destruct (index <? Z.of_nat (length data)); [|discriminate]. injection P as <-. exact R.
  - rewrite !map_map. f_equal; apply map_ext; intros; [apply reset_quat|apply reset_phase|apply reset_other].
Qed.

(** Every point of the map has the values of the chosen solution, with the identity rotation where it is not indexed. *)
Theorem C49_entries_of_chosen_solution : forall data ids index n x data', Forall (fun p => 0 <= p) ids ->
  xmap_from_data identity data ids index n = Some (x, data') ->
  exists row, chosen data index = Some row /\
    length (rotations x) = length row /\ length (phase_ids x) = length row /\ length (props x) = length row /\
    forall p e, nth_error row p = Some e ->
      nth_error (rotations x) p = Some (if phase e =? -1 then identity else quat e) /\
      nth_error (phase_ids x) p = Some (phase e) /\ nth_error (props x) p = Some (other e).
Proof.
  intros data ids index n x data' IDS E. destruct (success _ _ _ _ _ _ IDS E) as (i & row & _ & C & _ & _ & -> & _).
  exists row. split; [exact C|]. cbn [rotations phase_ids props]. rewrite !map_length. repeat split; try reflexivity.
  - rewrite nth_error_map, H. reflexivity.
  - rewrite nth_error_map, H. reflexivity.
  - rewrite nth_error_map, H. reflexivity.
Qed.

(** The call succeeds exactly for a valid index and at most two navigation dimensions. *)
Theorem C49_when_it_succeeds : forall data ids index n, Forall (fun p => 0 <= p) ids ->
  (exists r, xmap_from_data identity data ids index n = Some r) <->
  (n <= 2)%nat /\ (index = -1 \/ In index ids) /\ chosen data index <> None.
Proof.
  intros data ids index n IDS. split.
  - intros [[x d] E]. destruct (success _ _ _ _ _ _ IDS E) as (i & row & _ & C & I & _). split; [|split; [exact I|congruence]].
    unfold xmap_from_data in E. destruct (Nat.ltb_spec 2 n); [discriminate|lia].
  - intros (N & I & C). unfold xmap_from_data. destruct (Nat.ltb_spec 2 n); [lia|].
    replace (negb (index =? -1) && negb (existsb (Z.eqb index) ids)) with false.
    2:{ symmetry. apply andb_false_iff. destruct I as [->|I]; [left; reflexivity|]. right. apply negb_false_iff, existsb_exists. exists index. split; [exact I|apply Z.eqb_refl]. }
    destruct (chosen data index) as [row|] eqn:R; [|congruence]. clear C. unfold chosen in R. unfold py_index.
    destruct I as [->|I].
    + change (-1 =? -1) with true in R. cbv iota in R. change (0 <=? -1) with false. cbn [andb]. change (-1 <? 0) with true. cbn [andb].
      assert (L : (length data - 1 < length data)%nat) by (apply nth_error_Some; congruence).
      replace (- Z.of_nat (length data) <=? -1) with true by (symmetry; apply Z.leb_le; lia). cbn [bind].
      replace (Z.to_nat (Z.of_nat (length data) + -1)) with (length data - 1)%nat by lia. rewrite R. cbn [bind]. eexists. reflexivity.
    + rewrite Forall_forall in IDS. apply IDS in I.
      replace (index =? -1) with false in R by (symmetry; apply Z.eqb_neq; lia).
      replace (index <? 0) with false in R by (symmetry; apply Z.ltb_ge; lia).
      assert (L : (Z.to_nat index < length data)%nat) by (apply nth_error_Some; congruence).
      replace (0 <=? index) with true by (symmetry; apply Z.leb_le; lia).
      replace (index <? Z.of_nat (length data)) with true by (symmetry; apply Z.ltb_lt; lia). cbn [andb bind]. rewrite R. cbn [bind]. eexists. reflexivity.
Qed.

(** The array is left alone if every point of the chosen solution is indexed; only quaternions of not indexed points in
    the chosen solution change in any case. *)
Theorem C49_input_kept_partial : forall data ids index n x data', Forall (fun p => 0 <= p) ids ->
  xmap_from_data identity data ids index n = Some (x, data') ->
  (forall row, chosen data index = Some row -> Forall (fun e : entry => phase e <> -1) row) -> data' = data.
Proof.
  intros data ids index n x data' IDS E F. destruct (success _ _ _ _ _ _ IDS E) as (i & row & R & C & _ & _ & _ & ->).
  specialize (F row C). assert (M : map (reset identity) row = row).
  { clear -F. induction F as [|e r N F IH]; cbn [map]; [reflexivity|]. rewrite IH. f_equal. unfold reset.
    now rewrite (proj2 (Z.eqb_neq _ _) N). }
  rewrite M. clear -R. revert i R. induction data as [|y d IH]; intros [|i] R; cbn [nth_error set_row] in *; try discriminate.
  - now injection R as ->.
  - f_equal. now apply IH.
Qed.
Theorem C49_other_solutions_kept : forall data ids index n x data', Forall (fun p => 0 <= p) ids ->
  xmap_from_data identity data ids index n = Some (x, data') ->
  exists i, nth_error data i = chosen data index /\ forall j, j <> i -> nth_error data' j = nth_error data j.
Proof.
  intros data ids index n x data' IDS E. destruct (success _ _ _ _ _ _ IDS E) as (i & row & R & C & _ & _ & _ & ->).
  exists i. split; [congruence|]. intros j D. rewrite set_row_nth. now rewrite (proj2 (Nat.eqb_neq _ _) D).
Qed.
(** But a not indexed point with another quaternion is overwritten in the caller's array. *)
Theorem C49_input_changed_refuted : forall data ids index n x data' row p e, Forall (fun p => 0 <= p) ids ->
  xmap_from_data identity data ids index n = Some (x, data') ->
  chosen data index = Some row -> nth_error row p = Some e -> phase e = -1 -> quat e <> identity ->
  data' <> data /\ exists row', chosen data' index = Some row' /\ nth_error row' p = Some (Entry identity (-1) (other e)).
Proof.
  intros data ids index n x data' row p e IDS E C P U Q. destruct (success _ _ _ _ _ _ IDS E) as (i & row0 & R & C0 & I & PI & _ & ->).
  assert (row0 = row) by congruence. subst row0.
  assert (N : nth_error (set_row data i (map (reset identity) row)) i = Some (map (reset identity) row)) by (rewrite set_row_nth, Nat.eqb_refl, R; reflexivity).
  assert (X : nth_error (map (reset identity) row) p = Some (Entry identity (-1) (other e))).
  { rewrite nth_error_map, P. cbn [option_map]. unfold reset. rewrite U. reflexivity. }
  split.
  - intros S. rewrite S, R in N. injection N as N. rewrite <- N, P in X. injection X as X. rewrite X in Q. now apply Q.
  - exists (map (reset identity) row). split; [|exact X]. rewrite <- N. unfold chosen. rewrite set_row_length.
    unfold py_index in PI. destruct I as [->|I].
    + change (-1 =? -1) with true. cbv iota. change (0 <=? -1) with false in PI. change (-1 <? 0) with true in PI. cbn [andb] in PI.
      destruct (- Z.of_nat (length data) <=? -1) eqn:L; [|discriminate]. injection PI as <-. apply Z.leb_le in L. f_equal. lia.
    + rewrite Forall_forall in IDS. apply IDS in I.
      replace (index =? -1) with false by (symmetry; apply Z.eqb_neq; lia).
      replace (index <? 0) with false in * by (symmetry; apply Z.ltb_ge; lia).
      replace (0 <=? index) with true in PI by (symmetry; apply Z.leb_le; lia). cbn [andb] in PI.
      destruct (index <? Z.of_nat (length data)); [|discriminate]. injection PI as <-. reflexivity.
Qed.
End C.

(** Two solutions for three points, the second point not indexed in the best one. *)
Definition example_results : results (list Z) Z :=
  [[Entry [0; 1; 0; 0] 0 5; Entry [0; 0; 1; 0] 0 6; Entry [0; 0; 0; 1] 0 7];
   [Entry [0; 1; 0; 0] 0 5; Entry [0; 0; 0; 0] (-1) 6; Entry [0; 0; 0; 1] 0 7]].
Example C49_case : xmap_from_data [1; 0; 0; 0] example_results [0] (-1) 1 =
  Some (Xmap [[0; 1; 0; 0]; [1; 0; 0; 0]; [0; 0; 0; 1]] [0; -1; 0] [5; 6; 7],
  [[Entry [0; 1; 0; 0] 0 5; Entry [0; 0; 1; 0] 0 6; Entry [0; 0; 0; 1] 0 7];
   [Entry [0; 1; 0; 0] 0 5; Entry [1; 0; 0; 0] (-1) 6; Entry [0; 0; 0; 1] 0 7]]) := eq_refl.
Example C49_case_all_indexed : xmap_from_data [1; 0; 0; 0] example_results [0] 0 2 =
  Some (Xmap [[0; 1; 0; 0]; [0; 0; 1; 0]; [0; 0; 0; 1]] [0; 0; 0] [5; 6; 7], example_results) := eq_refl.
Print Assumptions C49_entries_of_chosen_solution.
