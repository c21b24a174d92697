(** Orientation similarity maps (property C04). *)
From Coq Require Import List Arith ZArith QArith Bool Lia Lqa Permutation.
From Verif Require Import Model.SimilarityMap Spec.SharedIndices.
Import ListNotations.
Local Open Scope nat_scope.

(** ** Lemmas *)

Lemma len_intersect_shares a b : shares a b (len_intersect1d a b).
Proof.
  exists (nodup Z.eq_dec (filter (fun x => existsb (Z.eqb x) b) a)). split; [apply NoDup_nodup|]. split; [reflexivity|].
  intros x. rewrite nodup_In, filter_In, existsb_exists. split.
  - intros [A [y [B E]]]. apply Z.eqb_eq in E. subst y. tauto.
  - intros [A B]. split; [exact A|]. exists x. split; [exact B|]. apply Z.eqb_refl.
Qed.

Lemma shares_unique a b k1 k2 : shares a b k1 -> shares a b k2 -> k1 = k2.
Proof.
  intros [l1 [N1 [<- I1]]] [l2 [N2 [<- I2]]]. apply Permutation_length.
  apply NoDup_Permutation; try assumption. intros x. rewrite I1, I2. reflexivity.
Qed.

Lemma shares_perm a a' b b' k : (forall x, In x a <-> In x a') -> (forall x, In x b <-> In x b') ->
  shares a b k -> shares a' b' k.
Proof.
  intros HA HB [l [N [L I]]]. exists l. split; [exact N|]. split; [exact L|].
  intros x. rewrite I, HA, HB. reflexivity.
Qed.

Lemma shares_le a b k : shares a b k -> k <= length a.
Proof.
  intros [l [N [<- I]]]. apply NoDup_incl_length; [exact N|]. intros x H. apply I in H. tauto.
Qed.

Lemma nth_firstn_table (t : list (list Z)) n i : nth i (map (firstn n) t) [] = firstn n (nth i t []).
Proof.
  replace (@nil Z) with (firstn n (@nil Z)) at 1 by (destruct n; reflexivity). apply map_nth.
Qed.

Lemma flat_index ny nx y x : y < ny -> x < nx -> Z.to_nat (Z.of_nat y * Z.of_nat nx + Z.of_nat x) = y * nx + x.
Proof. intros. lia. Qed.

Lemma flat_index_inj nx y x r c : x < nx -> c < nx -> y * nx + x = r * nx + c -> y = r /\ x = c.
Proof. intros H1 H2 E. assert (y = r) by nia. subst. lia. Qed.

Section Pixel.
Variables (fp : list (list bool)) (ny nx r c : nat).
Hypotheses (Hr : r < ny) (Hc : c < nx).

Definition flat : Z := Z.of_nat r * Z.of_nat nx + Z.of_nat c.

(** Neighbours kept by the code are the in-map points other than the centre. *)
Lemma kept_neighbours offs :
  filter (fun x => negb (x =? -1)%Z && negb (x =? flat)%Z)
    (map (fun o => let y := (Z.of_nat r + fst o)%Z in
                   let x := (Z.of_nat c + snd o)%Z in
                   if ((0 <=? y) && (y <? Z.of_nat ny) && (0 <=? x) && (x <? Z.of_nat nx))%Z
                   then (y * Z.of_nat nx + x)%Z else (-1)%Z) offs)
  = map (fun p : nat * nat => (Z.of_nat (fst p) * Z.of_nat nx + Z.of_nat (snd p))%Z) (neighbour_points offs ny nx r c).
Proof using Hr Hc.
  induction offs as [|[dy dx] offs IH]; [reflexivity|].
  cbn [map filter neighbour_points flat_map fst snd].
  destruct ((0 <=? Z.of_nat r + dy) && (Z.of_nat r + dy <? Z.of_nat ny) && (0 <=? Z.of_nat c + dx) && (Z.of_nat c + dx <? Z.of_nat nx))%Z eqn:IN.
  - rewrite !andb_true_iff in IN. destruct IN as [[[A B] C] D].
    apply Z.leb_le in A, C. apply Z.ltb_lt in B, D.
    assert (P : (0 <= (Z.of_nat r + dy) * Z.of_nat nx + (Z.of_nat c + dx))%Z) by nia.
    assert (E1 : (((Z.of_nat r + dy) * Z.of_nat nx + (Z.of_nat c + dx)) =? -1)%Z = false) by (apply Z.eqb_neq; lia).
    assert (E2 : (((Z.of_nat r + dy) * Z.of_nat nx + (Z.of_nat c + dx)) =? flat)%Z = ((dy =? 0) && (dx =? 0))%Z).
    { destruct (Z.eqb_spec dy 0) as [->|N1]; cbn [andb].
      - destruct (Z.eqb_spec dx 0) as [->|N2].
        + apply Z.eqb_eq. unfold flat. lia.
        + apply Z.eqb_neq. unfold flat. lia.
      - apply Z.eqb_neq. unfold flat. nia. }
    rewrite E1, E2. cbn [negb andb]. destruct ((dy =? 0) && (dx =? 0))%Z; cbn [negb app map fst snd].
    + exact IH.
    + f_equal; [rewrite !Z2Nat.id by lia; reflexivity|exact IH].
  - cbn [Z.eqb negb andb app]. exact IH.
Qed.

Lemma neighbour_points_in_map offs p : In p (neighbour_points offs ny nx r c) -> fst p < ny /\ snd p < nx.
Proof using.
  clear Hr Hc. unfold neighbour_points. rewrite in_flat_map. intros [[dy dx] [_ H]]. cbn [fst snd] in H.
  destruct (_ && _ && _ && _ && _) eqn:B; [|destruct H].
  rewrite !andb_true_iff in B. destruct B as [[[[A1 A2] A3] A4] _]. destruct H as [<-|[]]. cbn [fst snd].
  apply Z.leb_le in A1, A3. apply Z.ltb_lt in A2, A4. lia.
Qed.

(** The value of a pixel. *)
Lemma per_pixel_eq table ci n norm : ny * nx <= length table ->
  nth_error (offsets fp) ci = Some (0, 0)%Z ->
  per_pixel (picked fp ny nx r c) ci (map (firstn n) table) n norm
  = Some (match mean (map (fun p => len_intersect1d (best table nx n (r, c)) (best table nx n p))
                          (neighbour_points (offsets fp) ny nx r c)) with
          | None => None
          | Some m => if norm then (if n =? 0 then None else Some (m / inject_Z (Z.of_nat n))%Q) else Some m
          end).
Proof using Hr Hc.
  intros LT C. unfold per_pixel, picked. rewrite nth_error_map, C. cbn [option_map fst snd].
  rewrite !Z.add_0_r.
  assert (IN : ((0 <=? Z.of_nat r) && (Z.of_nat r <? Z.of_nat ny) && (0 <=? Z.of_nat c) && (Z.of_nat c <? Z.of_nat nx))%Z = true).
  { rewrite !andb_true_iff, !Z.leb_le, !Z.ltb_lt. lia. }
  rewrite IN. fold flat. rewrite kept_neighbours, map_map.
  assert (ROW : forall p, fst p < ny -> snd p < nx ->
     row_at (map (firstn n) table) (Z.of_nat (fst p) * Z.of_nat nx + Z.of_nat (snd p)) = best table nx n p).
  { intros p P1 P2. unfold row_at, best.
    destruct (Z.ltb_spec (Z.of_nat (fst p) * Z.of_nat nx + Z.of_nat (snd p)) 0) as [X|X]; [nia|].
    rewrite (flat_index ny) by assumption. apply nth_firstn_table. }
  rewrite (map_ext_in _ (fun p => len_intersect1d (best table nx n (r, c)) (best table nx n p))).
  - reflexivity.
  - intros p I. apply neighbour_points_in_map in I. destruct I as [I1 I2].
    rewrite (ROW p I1 I2). unfold flat.
    pose proof (ROW (r, c) Hr Hc) as E. cbn [fst snd] in E. rewrite E. reflexivity.
Qed.
End Pixel.

Lemma layer_at fp ci ny nx table n norm r c : r < ny -> c < nx ->
  nth c (nth r (layer fp ci ny nx table n norm) []) None = per_pixel (picked fp ny nx r c) ci (map (firstn n) table) n norm.
Proof.
  intros Hr Hc. unfold layer.
  rewrite (nth_indep _ [] (map (fun c => per_pixel (picked fp ny nx 0 c) ci (map (firstn n) table) n norm) (seq 0 nx)))
    by (rewrite map_length, seq_length; exact Hr).
  rewrite (map_nth (fun r => map (fun c => per_pixel (picked fp ny nx r c) ci (map (firstn n) table) n norm) (seq 0 nx))).
  rewrite seq_nth by exact Hr. cbn [plus].
  rewrite (nth_indep _ None (per_pixel (picked fp ny nx r 0) ci (map (firstn n) table) n norm))
    by (rewrite map_length, seq_length; exact Hc).
  rewrite (map_nth (fun c => per_pixel (picked fp ny nx r c) ci (map (firstn n) table) n norm)).
  rewrite seq_nth by exact Hc. reflexivity.
Qed.

Lemma list_sum_bound (l : list nat) n : Forall (fun k => k <= n) l -> list_sum l <= length l * n.
Proof. induction 1 as [|x l H F IH]; unfold list_sum in *; cbn in *; lia. Qed.

Lemma mean_bounds l n m : Forall (fun k => k <= n) l -> mean l = Some m -> (0 <= m <= inject_Z (Z.of_nat n))%Q.
Proof.
  intros F. destruct l as [|x l]; [discriminate|]. unfold mean. remember (x :: l) as L eqn:DL. intros E. injection E as <-.
  pose proof (list_sum_bound _ _ F) as B. assert (0 < length L) by (subst L; cbn; lia). clear DL.
  assert (P : (0 < inject_Z (Z.of_nat (length L)))%Q) by (change 0%Q with (inject_Z 0); rewrite <- Zlt_Qlt; lia).
  split.
  - apply Qle_shift_div_l; [exact P|]. rewrite Qmult_0_l. change 0%Q with (inject_Z 0). rewrite <- Zle_Qle. lia.
  - apply Qle_shift_div_r; [exact P|]. rewrite <- inject_Z_mult, <- Zle_Qle. rewrite <- Nat2Z.inj_mul. apply inj_le. rewrite Nat.mul_comm. exact B.
Qed.

(** ** Specification of the result *)

(** Value at row r and column c of layer k: Some (Some v), or Some None for nan. *)
Definition value (osm : list (list (list (option (option Q))))) (k r c : nat) : option (option Q) :=
  nth c (nth r (nth k osm []) []) None.

(** The point itself is at position center_index among the truthy values of the footprint. *)
Definition centred (fp : list (list bool)) (center_index : nat) : Prop := nth_error (offsets fp) center_index = Some (0, 0)%Z.
Definition footprint_of (footprint : option (list (list bool))) : list (list bool) :=
  match footprint with None => default_footprint | Some f => f end.
(** The numbers of best matches of the layers: n_best, n_best - 1, ..., from_n_best. *)
Definition layer_n (n_best : option nat) (keep_n k : nat) : nat := (match n_best with None => keep_n | Some n => n end) - k.

Lemma osm_layers ny nx keep table n_best norm from fp ci osm k :
  orientation_similarity_map ny nx keep table n_best norm from fp ci = Some osm -> k < length osm ->
  nth k osm [] = layer (footprint_of fp) ci ny nx table (layer_n n_best keep k) norm.
Proof.
  unfold orientation_similarity_map, layer_n. set (nb := match n_best with None => keep | Some n => n end).
  destruct (keep <? nb); [discriminate|]. destruct (_ <? _); [discriminate|].
  intros E. injection E as <-. rewrite map_length, seq_length. intros Hk.
  rewrite (nth_indep _ [] (layer (footprint_of fp) ci ny nx table (nb - 0) norm)) by (rewrite map_length, seq_length; exact Hk).
  rewrite (map_nth (fun i => layer (footprint_of fp) ci ny nx table (nb - i) norm)).
  rewrite seq_nth by exact Hk. reflexivity.
Qed.

Section Map.
Variables (ny nx keep : nat) (table : list (list Z)) (n_best : option nat) (from : option nat)
  (fp : option (list (list bool))) (ci : nat) (osm : list (list (list (option (option Q))))) (norm : bool).
Hypothesis TABLE : length table = ny * nx.
Hypothesis CENTRE : centred (footprint_of fp) ci.
Hypothesis RUN : orientation_similarity_map ny nx keep table n_best norm from fp ci = Some osm.
Let others r c := neighbour_points (offsets (footprint_of fp)) ny nx r c.

Lemma value_eq k r c : k < length osm -> r < ny -> c < nx ->
  value osm k r c = Some (match mean (map (fun p => len_intersect1d (best table nx (layer_n n_best keep k) (r, c))
                                                      (best table nx (layer_n n_best keep k) p)) (others r c)) with
    | None => None
    | Some m => if norm then (if layer_n n_best keep k =? 0 then None else Some (m / inject_Z (Z.of_nat (layer_n n_best keep k)))%Q) else Some m
    end).
Proof using All.
  intros Hk Hr Hc. unfold value. rewrite (osm_layers _ _ _ _ _ _ _ _ _ _ _ RUN Hk), layer_at by assumption.
  apply per_pixel_eq; try assumption. lia.
Qed.
End Map.

(** ** Theorems *)

(** C04: without normalization, the value at every point and layer is the mean, over the in-map points
    selected by the footprint, of the number of shared simulations among the n best; it is nan exactly when
    the point has no such neighbour. *)
Theorem C04_mean_of_shared_indices ny nx keep table n_best from fp ci osm k r c :
  length table = ny * nx -> centred (footprint_of fp) ci ->
  orientation_similarity_map ny nx keep table n_best false from fp ci = Some osm ->
  k < length osm -> r < ny -> c < nx ->
  let others := neighbour_points (offsets (footprint_of fp)) ny nx r c in
  (others = [] -> value osm k r c = Some None) /\
  (others <> [] -> exists v, value osm k r c = Some (Some v) /\
     mean_shared table nx (layer_n n_best keep k) (r, c) others v).
Proof.
  intros T C RUN Hk Hr Hc others. rewrite (value_eq _ _ _ _ _ _ _ _ _ _ T C RUN k r c Hk Hr Hc). fold others.
  split.
  - intros ->. reflexivity.
  - intros NE. set (n := layer_n n_best keep k).
    set (f := fun p => len_intersect1d (best table nx n (r, c)) (best table nx n p)).
    destruct others as [|o l] eqn:O; [congruence|]. unfold mean. cbn [map].
    eexists. split; [reflexivity|]. exists (map f (o :: l)). split.
    + clear. set (l' := o :: l). clearbody l'. induction l' as [|p l' IH]; cbn; constructor; [|exact IH].
      apply len_intersect_shares.
    + change (f o :: map f l) with (map f (o :: l)). unfold Qdiv. rewrite map_length.
      rewrite <- Qmult_assoc, (Qmult_comm (/ _)), Qmult_inv_r, Qmult_1_r; [reflexivity|].
      intros X. change 0%Q with (inject_Z 0) in X. apply (proj1 (inject_Z_injective _ _)) in X. cbn [length] in X. lia.
Qed.
Print Assumptions C04_mean_of_shared_indices.

(** C04: normalized values are the others divided by the number of simulations compared. *)
Theorem C04_normalized ny nx keep table n_best from fp ci osm osm' k r c v :
  length table = ny * nx -> centred (footprint_of fp) ci ->
  orientation_similarity_map ny nx keep table n_best false from fp ci = Some osm ->
  orientation_similarity_map ny nx keep table n_best true from fp ci = Some osm' ->
  k < length osm -> r < ny -> c < nx -> 0 < layer_n n_best keep k ->
  value osm k r c = Some (Some v) ->
  value osm' k r c = Some (Some (v / inject_Z (Z.of_nat (layer_n n_best keep k)))%Q).
Proof.
  intros T C RUN RUN' Hk Hr Hc HN V.
  assert (Hk' : k < length osm').
  { clear - RUN RUN' Hk. unfold orientation_similarity_map in RUN, RUN'.
    destruct (keep <? _); [discriminate|]. destruct (_ <? _); [discriminate|].
    injection RUN as <-. injection RUN' as <-. rewrite map_length in *. exact Hk. }
  rewrite (value_eq _ _ _ _ _ _ _ _ _ _ T C RUN k r c Hk Hr Hc) in V.
  rewrite (value_eq _ _ _ _ _ _ _ _ _ _ T C RUN' k r c Hk' Hr Hc).
  destruct (mean _) as [m|]; [|discriminate]. injection V as <-.
  destruct (Nat.eqb_spec (layer_n n_best keep k) 0) as [E|_]; [lia|]. reflexivity.
Qed.
Print Assumptions C04_normalized.

(** C04: values are between 0 and the number of simulations compared; between 0 and 1 if normalized. *)
Theorem C04_bounds ny nx keep table n_best norm from fp ci osm k r c v :
  length table = ny * nx -> centred (footprint_of fp) ci ->
  orientation_similarity_map ny nx keep table n_best norm from fp ci = Some osm ->
  k < length osm -> r < ny -> c < nx -> value osm k r c = Some (Some v) ->
  (0 <= v <= if norm then 1 else inject_Z (Z.of_nat (layer_n n_best keep k)))%Q.
Proof.
  intros T C RUN Hk Hr Hc V. rewrite (value_eq _ _ _ _ _ _ _ _ _ _ T C RUN k r c Hk Hr Hc) in V.
  set (n := layer_n n_best keep k) in *.
  destruct (mean _) as [m|] eqn:M; [|discriminate].
  assert (B : (0 <= m <= inject_Z (Z.of_nat n))%Q).
  { eapply mean_bounds; [|exact M]. apply Forall_forall. intros x I. apply in_map_iff in I. destruct I as [p [<- _]].
    eapply Nat.le_trans; [eapply shares_le, len_intersect_shares|]. unfold best. rewrite firstn_length. lia. }
  destruct norm.
  - destruct (Nat.eqb_spec n 0) as [E|NZ]; [discriminate|]. injection V as <-.
    assert (P : (0 < inject_Z (Z.of_nat n))%Q) by (change 0%Q with (inject_Z 0); rewrite <- Zlt_Qlt; lia).
    split; [apply Qle_shift_div_l; [exact P|]; rewrite Qmult_0_l; tauto|].
    apply Qle_shift_div_r; [exact P|]. rewrite Qmult_1_l. tauto.
  - injection V as <-. exact B.
Qed.
Print Assumptions C04_bounds.

(** C04: only the sets of the n best simulations matter, not their order. *)
Theorem C04_order_of_indices_irrelevant ny nx keep keep' table table' n_best norm from fp ci osm osm' k r c :
  length table = ny * nx -> length table' = ny * nx -> centred (footprint_of fp) ci ->
  orientation_similarity_map ny nx keep table (Some n_best) norm from fp ci = Some osm ->
  orientation_similarity_map ny nx keep' table' (Some n_best) norm from fp ci = Some osm' ->
  k < length osm -> r < ny -> c < nx ->
  (forall p x, In x (best table nx (n_best - k) p) <-> In x (best table' nx (n_best - k) p)) ->
  value osm' k r c = value osm k r c.
Proof.
  intros T T' C RUN RUN' Hk Hr Hc SAME.
  assert (Hk' : k < length osm').
  { clear - RUN RUN' Hk. unfold orientation_similarity_map in RUN, RUN'.
    destruct (keep <? _); [discriminate|]. destruct (keep' <? _); [discriminate|]. destruct (_ <? _); [discriminate|].
    injection RUN as <-. injection RUN' as <-. rewrite map_length in *. exact Hk. }
  rewrite (value_eq _ _ _ _ _ _ _ _ _ _ T C RUN k r c Hk Hr Hc).
  rewrite (value_eq _ _ _ _ _ _ _ _ _ _ T' C RUN' k r c Hk' Hr Hc).
  unfold layer_n. cbv iota.
  rewrite (map_ext (fun p => len_intersect1d (best table' nx (n_best - k) (r, c)) (best table' nx (n_best - k) p))
                   (fun p => len_intersect1d (best table nx (n_best - k) (r, c)) (best table nx (n_best - k) p))).
  - reflexivity.
  - intros p. eapply shares_unique; [apply len_intersect_shares|].
    eapply shares_perm; [apply SAME|apply SAME|]. apply len_intersect_shares.
Qed.
Print Assumptions C04_order_of_indices_irrelevant.

(** C04: layer k of a result with several layers is the map computed for n_best - k alone. *)
Theorem C04_layers_are_single_maps ny nx keep table n_best norm from fp ci osm k :
  orientation_similarity_map ny nx keep table (Some n_best) norm from fp ci = Some osm -> k < length osm -> k <= n_best ->
  exists l, orientation_similarity_map ny nx keep table (Some (n_best - k)) norm None fp ci = Some [l] /\
    nth_error osm k = Some l.
Proof.
  intros RUN Hk KN. unfold orientation_similarity_map in RUN |- *.
  destruct (Nat.ltb_spec keep n_best) as [X|X]; [discriminate|].
  destruct (_ <? _) eqn:F; [discriminate|]. injection RUN as <-. rewrite map_length, seq_length in Hk.
  destruct (Nat.ltb_spec keep (n_best - k)) as [Y|Y]; [lia|].
  destruct (Nat.ltb_spec (n_best - k + 1) (n_best - k)) as [Z|Z]; [lia|].
  replace (n_best - k + 1 - (n_best - k)) with 1 by lia. cbn [seq map]. rewrite Nat.sub_0_r.
  eexists. split; [reflexivity|]. rewrite nth_error_map.
  rewrite (nth_error_nth' _ 0) by (rewrite seq_length; exact Hk). cbn [option_map]. rewrite seq_nth by exact Hk. reflexivity.
Qed.
Print Assumptions C04_layers_are_single_maps.

(** C04: which calls are rejected, and the number of layers. *)
Theorem C04_rejected_and_layer_count ny nx keep table n from norm fp ci :
  match orientation_similarity_map ny nx keep table (Some n) norm (Some from) fp ci with
  | None => keep < n \/ n + 1 < from
  | Some osm => n <= keep /\ from <= n + 1 /\ length osm = n + 1 - from
  end.
Proof.
  unfold orientation_similarity_map. destruct (Nat.ltb_spec keep n) as [X|X]; [left; exact X|].
  destruct (Nat.ltb_spec (n + 1) from) as [Y|Y]; [right; exact Y|].
  rewrite map_length, seq_length. lia.
Qed.
Print Assumptions C04_rejected_and_layer_count.

(** The points averaged over are, each once, the other points of the map on which the footprint is true when its centre (row h // 2,
    column w // 2) is put on the point. *)
Lemma NoDup_flat_map {B C} (f : B -> list C) l : NoDup l -> (forall b, In b l -> NoDup (f b)) ->
  (forall b b' x, In b l -> In b' l -> In x (f b) -> In x (f b') -> b = b') -> NoDup (flat_map f l).
Proof.
  intros N. induction N as [|b l NI N IH]; intros F D; cbn; [constructor|].
  assert (IH' : NoDup (flat_map f l)) by (apply IH; [intros; apply F; now right|intros b0 b' x I I'; apply D; now right]).
  assert (Nb : NoDup (f b)) by (apply F; now left).
  assert (X : forall x, In x (f b) -> ~ In x (flat_map f l)).
  { intros x I J. apply in_flat_map in J. destruct J as [b' [J1 J2]]. apply NI. rewrite (D b b' x); [exact J1|now left|now right|exact I|exact J2]. }
  clear -IH' Nb X. induction Nb as [|y m NI N IH]; cbn; [exact IH'|]. constructor.
  - rewrite in_app_iff. intros [I|I]; [now apply NI|]. apply (X y); [now left|exact I].
  - apply IH. intros x I. apply X. now right.
Qed.
Theorem C04_neighbours_of_footprint fp ny nx r c : r < ny -> c < nx ->
  let h := length fp in
  let w := length (hd [] fp) in
  NoDup (neighbour_points (offsets fp) ny nx r c) /\
  forall y x, In (y, x) (neighbour_points (offsets fp) ny nx r c) <->
    y < ny /\ x < nx /\ (y, x) <> (r, c) /\
    exists i j, i < h /\ j < w /\ nth j (nth i fp []) false = true /\ y + h / 2 = r + i /\ x + w / 2 = c + j.
Proof.
  intros Hr Hc h w.
  assert (O : forall dy dx, In (dy, dx) (offsets fp) <-> exists i j, i < h /\ j < w /\ nth j (nth i fp []) false = true /\ dy = (Z.of_nat i - Z.of_nat (h / 2))%Z /\ dx = (Z.of_nat j - Z.of_nat (w / 2))%Z).
  { intros dy dx. unfold offsets. fold h w. rewrite in_flat_map. split.
    - intros [i [I J]]. apply in_flat_map in J. destruct J as [j [J K]]. apply in_seq in I, J. destruct (nth j (nth i fp []) false) eqn:E; [|destruct K].
      destruct K as [K|[]]. injection K as <- <-. exists i, j. repeat split; try lia. exact E.
    - intros [i [j [I [J [E [-> ->]]]]]]. exists i. split; [apply in_seq; lia|]. apply in_flat_map. exists j. split; [apply in_seq; lia|]. rewrite E. now left. }
  split.
  - unfold neighbour_points. apply NoDup_flat_map.
    + unfold offsets. fold h w. apply NoDup_flat_map.
      * apply seq_NoDup.
      * intros i _. apply NoDup_flat_map; [apply seq_NoDup| |].
        -- intros j _. destruct (nth j (nth i fp []) false); repeat constructor. intros [].
        -- intros j j' o _ _ A B. destruct (nth j (nth i fp []) false); [|destruct A]. destruct (nth j' (nth i fp []) false); [|destruct B].
           destruct A as [<-|[]], B as [B|[]]. injection B as B1. lia.
      * intros i i' o _ _ A B. apply in_flat_map in A, B. destruct A as [j [_ A]], B as [j' [_ B]].
        destruct (nth j (nth i fp []) false); [|destruct A]. destruct (nth j' (nth i' fp []) false); [|destruct B].
        destruct A as [<-|[]], B as [B|[]]. injection B as B1 B2. lia.
    + intros [dy dx] _. cbn [fst snd]. destruct (_ && _); repeat constructor. intros [].
    + intros [dy dx] [dy' dx'] [y x] _ _. cbn [fst snd]. intros A B.
      match type of A with In _ (if ?t then _ else _) => destruct t eqn:EA; [|destruct A] end.
      match type of B with In _ (if ?t then _ else _) => destruct t eqn:EB; [|destruct B] end.
      destruct A as [A|[]], B as [B|[]]. injection A as A1 A2. injection B as B1 B2. rewrite !andb_true_iff, !Z.leb_le, !Z.ltb_lt in EA, EB. f_equal; lia.
  - intros y x. unfold neighbour_points. rewrite in_flat_map. split.
    + intros [[dy dx] [I J]]. cbn [fst snd] in J. match type of J with In _ (if ?t then _ else _) => destruct t eqn:E; [|destruct J] end.
      destruct J as [J|[]]. injection J as J1 J2. apply O in I. destruct I as [i [j [Hi [Hj [T [D1 D2]]]]]].
      rewrite !andb_true_iff, !Z.leb_le, !Z.ltb_lt, negb_true_iff, andb_false_iff, !Z.eqb_neq in E.
      split; [lia|]. split; [lia|]. split; [intros Q; injection Q; lia|]. exists i, j. repeat split; try assumption; lia.
    + intros [Hy [Hx [NE [i [j [Hi [Hj [T [E1 E2]]]]]]]]]. exists ((Z.of_nat i - Z.of_nat (h / 2))%Z, (Z.of_nat j - Z.of_nat (w / 2))%Z). split; [apply O; exists i, j; auto|].
      cbn [fst snd]. match goal with |- In _ (if ?t then _ else _) => assert (E : t = true) end.
      { rewrite !andb_true_iff, !Z.leb_le, !Z.ltb_lt, negb_true_iff, andb_false_iff, !Z.eqb_neq. repeat split; try lia.
        destruct (Nat.eq_dec y r); [right|left; lia]. intros Q. apply NE. f_equal; lia. }
      rewrite E. left. f_equal; lia.
Qed.

(** Without a footprint the point itself and the four nearest neighbours are used. *)
Theorem C04_default_footprint dy dx : In (dy, dx) (offsets default_footprint) <-> (Z.abs dy + Z.abs dx <= 1)%Z.
Proof.
  cbn. split.
  - intros H. repeat (destruct H as [H|H]; [injection H as <- <-; cbn; lia|]). destruct H.
  - intros H. assert (C : (dy, dx) = (0, 0)%Z \/ (dy, dx) = (1, 0)%Z \/ (dy, dx) = (-1, 0)%Z \/ (dy, dx) = (0, 1)%Z \/ (dy, dx) = (0, -1)%Z).
    { assert (A : (dy = 0 /\ dx = 0 \/ dy = 1 /\ dx = 0 \/ dy = -1 /\ dx = 0 \/ dy = 0 /\ dx = 1 \/ dy = 0 /\ dx = -1)%Z) by lia.
      repeat (destruct A as [[-> ->]|A]; [tauto|]). destruct A as [-> ->]. tauto. }
    repeat (destruct C as [->|C]; [tauto|]). rewrite C. tauto.
Qed.

(** ** Concrete case: a map of 2 x 3 points with three simulations each *)

Example default_centred : centred default_footprint 2.
Proof. reflexivity. Qed.
Definition example_table : list (list Z) := [[1; 2; 3]; [3; 1; 4]; [5; 6; 7]; [2; 1; 9]; [1; 3; 8]; [8; 3; 1]]%Z.
Example example_neighbours : neighbour_points (offsets default_footprint) 2 3 0 1 = [(0, 0); (0, 2); (1, 1)].
Proof. reflexivity. Qed.
Example example_osm :
  option_map (fun o => (length o, value o 0 0 1, value o 1 0 1))
    (orientation_similarity_map 2 3 3 example_table None false (Some 2) None 2)
  = Some (2, Some (Some (4 # 3)%Q), Some (Some (3 # 3)%Q)).
Proof. reflexivity. Qed.
(** A one-point map: no neighbours, nan. *)
Example example_alone :
  option_map (fun o => value o 0 0 0) (orientation_similarity_map 1 1 3 [[1; 2; 3]]%Z None false None None 2) = Some (Some None).
Proof. reflexivity. Qed.
