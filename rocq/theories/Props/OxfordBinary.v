(** Oxford Instruments' binary files (property C28). [decode] stands for the reading of 8 bytes as a float64. *)
From Coq Require Import String List Arith ZArith QArith Qround Qabs Bool Lia Lqa Permutation Sorted.
From Verif Require Import Model.Binary Model.OxfordBinary Spec.BinaryFiles Proofs.ListLemmas Proofs.BinaryProofs Proofs.EdaxBinaryProofs
  Proofs.OxfordBinaryProofs Proofs.OxfordCountProofs.
Import ListNotations.
Local Open Scope nat_scope.

(** ** Number of map points *)

Theorem C28_number_of_patterns e : ebsp_valid e -> ebsp_countable e -> guess_number_of_patterns (e_version e) (ebsp_file e) = Some (e_n e).
Proof. exact (count_ok e). Qed.

(** Files of up to 55 MB with all patterns, of at least 4872 bytes each, can be counted, whatever the order in which
    they are stored; from version 5 on if the first one stored is in the first row. *)
Theorem C28_small_files_are_countable e : ebsp_valid e -> length (e_stored e) = e_n e -> 4872 <= e_sy e * e_sx e * e_item e ->
  (Z.of_nat (length (ebsp_file e)) <= 55050560)%Z ->
  ((e_version e <? 5) = false -> forall i, hd_error (e_stored e) = Some i -> e_my e i = 0%Z /\ (0 <= e_mx e i <= 55050560)%Z) ->
  ebsp_countable e.
Proof.
  intros V ALL BIG SMALL FIRST. pose proof (file_length_eq e V) as L. rewrite ALL in L. pose proof (n_pos e V) as NP.
  assert (SY : 1 <= e_sy e) by (destruct V as [_ [_ [_ [_ [_ [Y _]]]]]]; exact Y).
  assert (R : 4872 <= ebsp_record_size e) by (unfold ebsp_record_size; lia).
  assert (P : forall i, (0 <= ebsp_position e i <= 55050560)%Z).
  { intros i. pose proof (position_range e V i) as B. destruct (place (e_stored e) i) as [j|] eqn:PL.
    - destruct (position_some e i j PL) as [E J]. rewrite E. nia.
    - unfold ebsp_position. rewrite PL. lia. }
  assert (RE : (55050560 <= ebsp_reach e <= 55050720)%Z) by (unfold ebsp_reach; destruct (e_version e <? 5); cbn; lia).
  split; [|split].
  - destruct (e_version e <? 5); nia.
  - intros i _. pose proof (P i). pose proof (P (S i)). lia.
  - destruct (e_version e <? 5) eqn:E5.
    + pose proof (P (e_n e - 1)). lia.
    + destruct (first_record e V) as [i [t [HD _]]]. exists i. destruct (FIRST eq_refl i HD) as [F1 F2]. pose proof (P (e_n e - 1)).
      split; [exact HD|]. split; [exact F1|]. lia.
Qed.

(** ** All patterns present *)

Lemma returned_all e : length (e_stored e) = e_n e -> returned e = seq 0 (e_n e).
Proof. intros A. unfold returned. rewrite A, Nat.eqb_refl. reflexivity. Qed.
Lemma grid_last rows cols : 1 <= rows -> 1 <= cols -> rows * cols - 1 = (rows - 1) * cols + (cols - 1).
Proof. intros R C. nia. Qed.
Lemma nth_map_seq {T} (g : nat -> T) m k : k < m -> nth_error (map g (seq 0 m)) k = Some (g k).
Proof. intros K. rewrite nth_error_map, nth_error_seq by exact K. reflexivity. Qed.

Lemma axis_count decode (a b d : list Z) (x0 step : Q) k :
  ~ step == 0 -> (forall j : Z, ~ x0 / step == inject_Z j + (1 # 2)) -> decode b == x0 + inject_Z (Z.of_nat k) * step -> decode a == x0 + inject_Z 0 * step -> decode d == step ->
  Z.to_nat (Z.abs (around (decode b / decode d) - around (decode a / decode d))) + 1 = k + 1.
Proof.
  intros S T B A D. rewrite (around_comp (decode a / decode d) (x0 / step)) by (rewrite A, D; field; exact S).
  rewrite (around_comp (decode b / decode d) (x0 / step + inject_Z (Z.of_nat k))) by (rewrite B, D; field; exact S).
  rewrite around_add by exact T. lia.
Qed.

Lemma shape_read decode e rows cols x0 y0 step : ebsp_grid decode e rows cols x0 y0 step -> 1 <= rows -> 2 <= cols ->
  exists st, st == step /\
    nav_shape_from decode (e_bx e 0) (e_bx e 1) (e_bx e (e_n e - 1)) (e_by e 0) (e_by e (e_n e - 1)) =
      Some (Z.to_nat (Z.abs (around (y0 / step + inject_Z (Z.of_nat (rows - 1))) - around (y0 / step))) + 1,
            Z.to_nat (Z.abs (around (x0 / step + inject_Z (Z.of_nat (cols - 1))) - around (x0 / step))) + 1, st).
Proof.
  intros [N [S G]] R C. destruct (G 0 0 ltac:(lia) ltac:(lia)) as [X0 Y0]. destruct (G 0 1 ltac:(lia) ltac:(lia)) as [X1 _].
  destruct (G (rows - 1) (cols - 1) ltac:(lia) ltac:(lia)) as [XL YL]. rewrite <- grid_last, <- N in XL, YL by lia. cbn [Nat.mul Nat.add] in X0, Y0, X1.
  exists (decode (e_bx e 1) - decode (e_bx e 0))%Q.
  assert (ST : (decode (e_bx e 1) - decode (e_bx e 0) == step)%Q) by (rewrite X0, X1; cbn; ring).
  split; [exact ST|]. unfold nav_shape_from. destruct (Qeq_bool _ 0) eqn:Z; [exfalso; apply S; apply Qeq_bool_iff in Z; rewrite <- ST; exact Z|].
  rewrite (around_comp (decode (e_by e 0) / (decode (e_bx e 1) - decode (e_bx e 0))) (y0 / step)) by (rewrite Y0, ST; cbn; field; exact S).
  rewrite (around_comp (decode (e_bx e 0) / (decode (e_bx e 1) - decode (e_bx e 0))) (x0 / step)) by (rewrite ST, X0; cbn; field; exact S).
  rewrite (around_comp (decode (e_by e (e_n e - 1)) / (decode (e_bx e 1) - decode (e_bx e 0))) (y0 / step + inject_Z (Z.of_nat (rows - 1)))) by (rewrite ST, YL; field; exact S).
  rewrite (around_comp (decode (e_bx e (e_n e - 1)) / (decode (e_bx e 1) - decode (e_bx e 0))) (x0 / step + inject_Z (Z.of_nat (cols - 1)))) by (rewrite ST, XL; field; exact S).
  reflexivity.
Qed.

Lemma complete_of_shape decode e rows cols st :
  ebsp_valid e -> ebsp_countable e -> 1 <= e_version e -> length (e_stored e) = e_n e -> 1 <= rows -> 2 <= cols -> e_n e = rows * cols ->
  nav_shape_from decode (e_bx e 0) (e_bx e 1) (e_bx e (e_n e - 1)) (e_by e 0) (e_by e (e_n e - 1)) = Some (rows, cols, st) ->
  exists s, read_scan decode (ebsp_file e) = Some s /\ nav_shape s = [rows; cols] /\ sig_shape s = (e_sy e, e_sx e) /\
    names s = ["y"; "x"; "dy"; "dx"]%string /\ scales s = [st; st; inject_Z 1; inject_Z 1] /\
    length (patterns s) = rows * cols /\
    forall r c, r < rows -> c < cols -> let i := r * cols + c in
      nth_error (patterns s) i = Some (pattern_pixels (e_pat e i) (e_sy e) (e_sx e)) /\
      nth_error (map1d_id s) i = Some i /\
      (exists b, beam_x s = Some b /\ nth_error b i = Some (e_bx e i)) /\ (exists b, beam_y s = Some b /\ nth_error b i = Some (e_by e i)) /\
      (5 <= e_version e -> (exists b, map_x s = Some b /\ nth_error b i = Some (e_mx e i)) /\ (exists b, map_y s = Some b /\ nth_error b i = Some (e_my e i))).
Proof.
  intros V CO V1 ALL R C N NS. pose proof (read_eq e V decode (count_ok e V CO)) as RE. unfold nav in RE.
  rewrite ALL, Nat.eqb_refl in RE. cbn [negb orb] in RE. destruct (Nat.eqb_spec (e_version e) 0) as [|_]; [lia|].
  destruct (Nat.eqb_spec (e_n e) 1) as [|_]; [nia|].
  rewrite NS in RE. clear NS. cbn [option_map bind] in RE.
  assert (SZ : size_of [rows; cols] = e_n e) by (rewrite N; cbn; lia). rewrite SZ, Nat.eqb_refl in RE. cbn [negb] in RE.
  rewrite (present_all e V ALL), (returned_all e ALL) in RE.
  eexists. split; [exact RE|]. cbn [nav_shape sig_shape names scales patterns map1d_id beam_x beam_y map_x map_y]. do 5 (split; [reflexivity || (rewrite map_length, seq_length; exact N)|]).
  intros r c Hr Hc. set (i := r * cols + c). assert (I : i < e_n e) by (unfold i; rewrite N; nia).
  split; [rewrite nth_map_seq by exact I; reflexivity|]. split; [rewrite nth_error_seq by exact I; reflexivity|].
  split; [eexists; split; [reflexivity|apply nth_map_seq; exact I]|]. split; [eexists; split; [reflexivity|apply nth_map_seq; exact I]|].
  intros V5. destruct (Nat.ltb_spec (e_version e) 5); [lia|]. split; eexists; (split; [reflexivity|apply nth_map_seq; exact I]).
Qed.

(** A file of version 1 or later with the patterns of all points of a map, stored in any order, gives a map of the
    right shape and step size, in which each point has its own pattern and beam position (and from version 5 on
    column and row). *)
Theorem C28_complete_map decode e rows cols x0 y0 step :
  ebsp_valid e -> ebsp_countable e -> 1 <= e_version e -> length (e_stored e) = e_n e -> 1 <= rows -> 2 <= cols ->
  ebsp_grid decode e rows cols x0 y0 step -> off_tie x0 step -> off_tie y0 step ->
  exists s st, read_scan decode (ebsp_file e) = Some s /\ nav_shape s = [rows; cols] /\ sig_shape s = (e_sy e, e_sx e) /\
    names s = ["y"; "x"; "dy"; "dx"]%string /\ scales s = [st; st; inject_Z 1; inject_Z 1] /\ (st == step)%Q /\
    length (patterns s) = rows * cols /\
    forall r c, r < rows -> c < cols -> let i := r * cols + c in
      nth_error (patterns s) i = Some (pattern_pixels (e_pat e i) (e_sy e) (e_sx e)) /\
      nth_error (map1d_id s) i = Some i /\
      (exists b, beam_x s = Some b /\ nth_error b i = Some (e_bx e i)) /\ (exists b, beam_y s = Some b /\ nth_error b i = Some (e_by e i)) /\
      (5 <= e_version e -> (exists b, map_x s = Some b /\ nth_error b i = Some (e_mx e i)) /\ (exists b, map_y s = Some b /\ nth_error b i = Some (e_my e i))).
Proof.
  intros V CO V1 ALL R C G TX TY. destruct (shape_read decode e rows cols x0 y0 step G R C) as [st [ST NS]].
  rewrite !around_add in NS by assumption.
  replace (Z.to_nat (Z.abs (around (y0 / step) + Z.of_nat (rows - 1) - around (y0 / step))) + 1) with rows in NS by lia.
  replace (Z.to_nat (Z.abs (around (x0 / step) + Z.of_nat (cols - 1) - around (x0 / step))) + 1) with cols in NS by lia.
  destruct (complete_of_shape decode e rows cols st V CO V1 ALL R C (proj1 G) NS) as (s & A1 & A2 & A3 & A4 & A5 & A6 & A7).
  exists s, st. repeat (split; [assumption|]). exact A7.
Qed.

(** Also if the stored positions are not exactly on a grid, as long as the first and the last are, by less than half a
    step, in the cells they should be in. *)
Lemma around_near q k : (Qabs (q - inject_Z k) < 1 # 2)%Q -> around q = k.
Proof.
  intros H. apply Qabs_Qlt_condition in H as [H1 H2].
  pose proof (Qfloor_le q) as F1. pose proof (Qlt_floor q) as F2. unfold around. generalize dependent (Qfloor q). intros f F1 F2.
  pose proof (inject_Z_plus f 1) as P1. pose proof (inject_Z_plus k 1) as P2. pose proof (inject_Z_plus (k - 2) 2) as P3.
  pose proof (inject_Z_plus (k - 1) 1) as P4. replace (k - 2 + 2)%Z with k in P3 by lia. replace (k - 1 + 1)%Z with k in P4 by lia.
  change (inject_Z 1) with 1%Q in *. change (inject_Z 2) with 2%Q in *. rewrite P1 in F2.
  assert (D : (f = k \/ f = k - 1)%Z).
  { assert (A : (inject_Z f < inject_Z (k + 1))%Q) by (rewrite P2; lra).
    assert (B : (inject_Z (k - 2) < inject_Z f)%Q) by (rewrite P3 in H1; lra).
    rewrite <- Zlt_Qlt in A, B. lia. }
  destruct D as [D|D]; subst f.
  - destruct (Qcompare_spec (q - inject_Z k) (1 # 2)) as [E|E|E]; [lra|reflexivity|lra].
  - destruct (Qcompare_spec (q - inject_Z (k - 1)) (1 # 2)) as [E|E|E]; [rewrite P4 in H1; lra|rewrite P4 in H1; lra|lia].
Qed.
Theorem C28_noisy_positions decode e rows cols (j k : Z) :
  ebsp_valid e -> ebsp_countable e -> 1 <= e_version e -> length (e_stored e) = e_n e -> 1 <= rows -> 2 <= cols -> e_n e = rows * cols ->
  let step := (decode (e_bx e 1) - decode (e_bx e 0))%Q in ~ (step == 0)%Q ->
  (Qabs (decode (e_bx e 0) / step - inject_Z j) < 1 # 2)%Q -> (Qabs (decode (e_bx e (e_n e - 1)) / step - inject_Z (j + Z.of_nat (cols - 1))) < 1 # 2)%Q ->
  (Qabs (decode (e_by e 0) / step - inject_Z k) < 1 # 2)%Q -> (Qabs (decode (e_by e (e_n e - 1)) / step - inject_Z (k + Z.of_nat (rows - 1))) < 1 # 2)%Q ->
  exists s, read_scan decode (ebsp_file e) = Some s /\ nav_shape s = [rows; cols] /\ scales s = [step; step; inject_Z 1; inject_Z 1] /\
    forall r c, r < rows -> c < cols -> nth_error (patterns s) (r * cols + c) = Some (pattern_pixels (e_pat e (r * cols + c)) (e_sy e) (e_sx e)).
Proof.
  intros V CO V1 ALL R C N step S X0 XL Y0 YL.
  destruct (complete_of_shape decode e rows cols step V CO V1 ALL R C N) as (s & A1 & A2 & A3 & A4 & A5 & A6 & A7).
  - unfold nav_shape_from. fold step. destruct (Qeq_bool step 0) eqn:Z; [exfalso; apply S; apply Qeq_bool_iff; exact Z|].
    rewrite (around_near _ _ X0), (around_near _ _ XL), (around_near _ _ Y0), (around_near _ _ YL). f_equal. f_equal. f_equal; lia.
  - exists s. repeat (split; [assumption|]). intros r c Hr Hc. exact (proj1 (A7 r c Hr Hc)).
Qed.

(** Version 0 has no beam positions: patterns come one after another in the order of the map, whatever the order in
    which they are stored. *)
Theorem C28_version_0 decode e : ebsp_valid e -> ebsp_countable e -> e_version e = 0 -> length (e_stored e) = e_n e ->
  exists s, read_scan decode (ebsp_file e) = Some s /\ nav_shape s = [e_n e] /\ sig_shape s = (e_sy e, e_sx e) /\
    beam_x s = None /\ beam_y s = None /\ length (patterns s) = e_n e /\
    forall i, i < e_n e -> nth_error (patterns s) i = Some (pattern_pixels (e_pat e i) (e_sy e) (e_sx e)) /\ nth_error (map1d_id s) i = Some i.
Proof.
  intros V CO V0 ALL. pose proof (read_eq e V decode (count_ok e V CO)) as RE. unfold nav in RE. rewrite V0 in RE. rewrite orb_true_r in RE. cbn [bind Nat.eqb] in RE.
  replace (size_of [length (e_stored e)]) with (length (e_stored e)) in RE by (cbn; lia). rewrite Nat.eqb_refl in RE. cbn [negb] in RE.
  rewrite (present_all e V ALL), (returned_all e ALL) in RE. rewrite ALL in RE.
  eexists. split; [exact RE|]. cbn [nav_shape sig_shape patterns map1d_id beam_x beam_y]. do 5 (split; [reflexivity || (rewrite map_length, seq_length; reflexivity)|]).
  intros i I. split; [rewrite nth_map_seq by exact I; reflexivity|rewrite nth_error_seq by exact I; reflexivity].
Qed.

(** ** Some patterns missing *)

(** The patterns are returned in the order of the file, the metadata in the order of the map. *)
Theorem C28_incomplete_map decode e : ebsp_valid e -> ebsp_countable e -> length (e_stored e) <> e_n e ->
  exists s ids, read_scan decode (ebsp_file e) = Some s /\ nav_shape s = [length (e_stored e)] /\ sig_shape s = (e_sy e, e_sx e) /\
    patterns s = map (fun i => pattern_pixels (e_pat e i) (e_sy e) (e_sx e)) (e_stored e) /\
    map1d_id s = ids /\ Permutation ids (e_stored e) /\ StronglySorted lt ids /\
    (1 <= e_version e -> beam_x s = Some (map (e_bx e) ids) /\ beam_y s = Some (map (e_by e) ids)) /\
    (5 <= e_version e -> map_x s = Some (map (e_mx e) ids) /\ map_y s = Some (map (e_my e) ids)).
Proof.
  intros V CO MISS. pose proof (read_eq e V decode (count_ok e V CO)) as RE. unfold nav in RE.
  destruct (Nat.eqb_spec (length (e_stored e)) (e_n e)) as [|_]; [contradiction|]. cbn [negb orb bind] in RE.
  replace (size_of [length (e_stored e)]) with (length (e_stored e)) in RE by (cbn; lia). rewrite Nat.eqb_refl in RE. cbn [negb] in RE.
  eexists. exists (present_ids e). split; [exact RE|]. cbn [nav_shape sig_shape patterns map1d_id beam_x beam_y map_x map_y].
  split; [reflexivity|]. split; [reflexivity|]. split.
  { unfold returned. destruct (Nat.eqb_spec (length (e_stored e)) (e_n e)); [contradiction|]. reflexivity. }
  split; [reflexivity|]. split; [apply present_perm; exact V|]. split.
  { unfold present_ids. assert (H : forall a m, StronglySorted lt (filter (fun i => negb (ebsp_position e i =? 0)%Z) (seq a m))).
    { intros a m. revert a. induction m as [|m IH]; intros a; [constructor|]. cbn [seq filter]. destruct (negb _); [|apply IH].
      constructor; [apply IH|]. apply Forall_forall. intros x I. apply filter_In in I. destruct I as [I _]. apply in_seq in I. lia. }
    apply H. }
  split; intros VV.
  - destruct (Nat.eqb_spec (e_version e) 0); [lia|]. split; reflexivity.
  - destruct (Nat.ltb_spec (e_version e) 5); [lia|]. split; reflexivity.
Qed.

Lemma sorted_unique : forall l l' : list nat, StronglySorted lt l -> StronglySorted lt l' -> Permutation l l' -> l = l'.
Proof.
  induction l as [|a l IH]; intros l' S S' P; [apply Permutation_nil in P; congruence|].
  destruct l' as [|b l']; [apply Permutation_sym, Permutation_nil in P; discriminate|].
  apply StronglySorted_inv in S. apply StronglySorted_inv in S'. destruct S as [S F]. destruct S' as [S' F']. rewrite Forall_forall in F, F'.
  assert (a = b).
  { assert (IA : In a (b :: l')) by (eapply Permutation_in; [exact P|left; reflexivity]).
    assert (IB : In b (a :: l)) by (eapply Permutation_in; [apply Permutation_sym; exact P|left; reflexivity]).
    destruct IA as [|IA]; [congruence|]. destruct IB as [|IB]; [congruence|]. specialize (F _ IB). specialize (F' _ IA). lia. }
  subst b. f_equal. apply IH; [assumption|assumption|]. eapply Permutation_cons_inv. exact P.
Qed.

(** When the patterns are stored in the order of the map, each one has its own metadata. *)
Theorem C28_incomplete_map_in_order_partial decode e : ebsp_valid e -> ebsp_countable e -> length (e_stored e) <> e_n e -> StronglySorted lt (e_stored e) ->
  exists s, read_scan decode (ebsp_file e) = Some s /\ nav_shape s = [length (e_stored e)] /\
    forall k i, nth_error (map1d_id s) k = Some i ->
      nth_error (patterns s) k = Some (pattern_pixels (e_pat e i) (e_sy e) (e_sx e)) /\
      (1 <= e_version e -> (exists b, beam_x s = Some b /\ nth_error b k = Some (e_bx e i)) /\ (exists b, beam_y s = Some b /\ nth_error b k = Some (e_by e i))).
Proof.
  intros V CO MISS SO. destruct (C28_incomplete_map decode e V CO MISS) as [s [ids [RD [NS [_ [PA [ID [PE [SI [B _]]]]]]]]]].
  exists s. split; [exact RD|]. split; [exact NS|]. assert (E : ids = e_stored e) by (apply sorted_unique; assumption).
  intros k i K. rewrite ID, E in K. split; [rewrite PA, nth_error_map, K; reflexivity|].
  intros V1. destruct (B V1) as [B1 B2]. rewrite E in B1, B2.
  split; eexists; (split; [eassumption|rewrite nth_error_map, K; reflexivity]).
Qed.

(** When they are not, some pattern has the metadata of another one. *)
Theorem C28_incomplete_map_out_of_order_refuted decode e : ebsp_valid e -> ebsp_countable e -> length (e_stored e) <> e_n e -> ~ StronglySorted lt (e_stored e) ->
  (forall i j, i < e_n e -> j < e_n e -> ebsp_pixels e i = ebsp_pixels e j -> i = j) ->
  exists s k i, read_scan decode (ebsp_file e) = Some s /\ nth_error (map1d_id s) k = Some i /\
    nth_error (patterns s) k <> Some (pattern_pixels (e_pat e i) (e_sy e) (e_sx e)).
Proof.
  intros V CO MISS SO INJ. destruct (C28_incomplete_map decode e V CO MISS) as [s [ids [RD [_ [_ [PA [ID [PE [SI _]]]]]]]]].
  assert (NE : ids <> e_stored e) by (intros E; apply SO; rewrite <- E; exact SI).
  assert (L : length ids = length (e_stored e)) by (apply Permutation_length; exact PE).
  assert (D : forall a b : list nat, length a = length b -> a <> b -> exists k i j, nth_error a k = Some i /\ nth_error b k = Some j /\ i <> j).
  { induction a as [|x a IH]; intros [|y b] LE N; try discriminate; [congruence|]. destruct (Nat.eq_dec x y) as [->|NXY].
    - destruct (IH b) as [k [i [j H]]]; [cbn in LE; lia|congruence|]. exists (S k), i, j. exact H.
    - exists 0, x, y. auto. }
  destruct (D ids (e_stored e) L NE) as [k [i [j [K1 [K2 IJ]]]]]. exists s, k, i. split; [exact RD|]. rewrite ID. split; [exact K1|].
  rewrite PA, nth_error_map, K2. cbn [option_map]. intros E. injection E as E. apply IJ. symmetry.
  assert (LT : forall a, In a (e_stored e) -> a < e_n e) by (apply V).
  apply INJ; [apply LT; eapply nth_error_In; exact K2|apply LT; apply (Permutation_in _ PE); eapply nth_error_In; exact K1|exact E].
Qed.

(** ** Further limits *)

(** From version 5 on, the number of patterns is one too small if the first record stored is not in the first row (or
    the last position is out of reach of its column), and patterns of the right width are not returned. *)
Theorem C28_version_5_first_row_refuted decode e i : ebsp_valid e -> 5 <= e_version e -> (e_n e + 2) * 1624 <= length (ebsp_file e) -> ebsp_near e ->
  hd_error (e_stored e) = Some i -> (0 <= e_mx e i)%Z -> (1 <= e_my e i)%Z -> (Z.of_nat (length (ebsp_file e)) + ebsp_reach e < 2 ^ 32)%Z ->
  guess_number_of_patterns (e_version e) (ebsp_file e) = Some (e_n e - 1) /\
  forall s, read_scan decode (ebsp_file e) = Some s -> sig_shape s <> (e_sy e, e_sx e).
Proof.
  intros V V5 BIG NEAR HD MX MY SM. assert (E5 : (e_version e <? 5) = false) by (apply Nat.ltb_ge; exact V5).
  assert (P : (0 <= ebsp_position e (e_n e - 1) <= Z.of_nat (length (ebsp_file e)))%Z).
  { pose proof (file_length_eq e V) as L. destruct (place (e_stored e) (e_n e - 1)) as [j|] eqn:PL.
    - destruct (position_some e _ j PL) as [E J]. rewrite E. nia.
    - unfold ebsp_position. rewrite PL. lia. }
  assert (G : guess_number_of_patterns (e_version e) (ebsp_file e) = Some (e_n e - 1)) by (apply (count_short e V i); try assumption; lia).
  split; [exact G|]. intros s RD E. pose proof (short_shape e V decode s E5 G RD) as SH. rewrite E in SH. cbn in SH.
  destruct V as [_ [_ [_ [_ [_ [_ [X _]]]]]]]. lia.
Qed.

(** A map whose first beam column is half way between two multiples of the step size, and has an even number of
    columns, cannot be read: the number of columns is found one off. *)
Theorem C28_half_step_refuted decode e rows cols x0 y0 step k :
  ebsp_valid e -> ebsp_countable e -> 1 <= e_version e -> length (e_stored e) = e_n e -> 1 <= rows -> 2 <= cols -> Nat.even cols = true ->
  ebsp_grid decode e rows cols x0 y0 step -> (x0 / step == inject_Z k + (1 # 2))%Q -> off_tie y0 step ->
  read_scan decode (ebsp_file e) = None.
Proof.
  intros V CO V1 ALL R C EV G TX TY. pose proof (read_eq e V decode (count_ok e V CO)) as RE. unfold nav in RE.
  rewrite ALL, Nat.eqb_refl in RE. cbn [negb orb] in RE. destruct (Nat.eqb_spec (e_version e) 0) as [|_]; [lia|].
  pose proof (proj1 G) as N. destruct (Nat.eqb_spec (e_n e) 1) as [|_]; [nia|].
  destruct (shape_read decode e rows cols x0 y0 step G R C) as [st [ST NS]]. rewrite NS in RE. clear NS. cbn [option_map bind] in RE.
  rewrite (around_add (y0 / step)) in RE by exact TY.
  replace (Z.to_nat (Z.abs (around (y0 / step) + Z.of_nat (rows - 1) - around (y0 / step))) + 1) with rows in RE by lia.
  rewrite (around_tie _ k TX) in RE.
  rewrite (around_tie (x0 / step + inject_Z (Z.of_nat (cols - 1))) (k + Z.of_nat (cols - 1))) in RE by (rewrite TX, inject_Z_plus; ring).
  assert (EC : Z.even (k + Z.of_nat (cols - 1)) = negb (Z.even k)).
  { rewrite Z.even_add. apply Nat.even_spec in EV. destruct EV as [m ->]. replace (Z.of_nat (2 * m - 1)) with (1 + 2 * (Z.of_nat m - 1))%Z by lia.
    rewrite Z.even_add_mul_2. cbn. destruct (Z.even k); reflexivity. }
  rewrite EC in RE. rewrite RE.
  match goal with |- context [[rows; ?c]] => set (cc := c) end.
  assert (CC : cc <> cols) by (unfold cc; destruct (Z.even k); cbn [negb]; lia).
  destruct (Nat.eqb_spec (e_n e) (size_of [rows; cc])) as [E|E]; [|reflexivity]. exfalso. rewrite N in E. cbn in E. nia.
Qed.

(** ** Concrete files *)

Definition decode1 (b : list Z) : Q := inject_Z (le b).
(** Points of a map of three columns with patterns of 70 by 70 pixels. *)
Definition demo (v n : nat) (stored : list nat) : ebsp :=
  Ebsp v [7%Z] n stored 70 70 1 (fun i y x => (Z.of_nat (i * 7 + y + x) mod 256)%Z)
    (fun i => to_le 8 (4 + 2 * Z.of_nat (i mod 3))) (fun i => to_le 8 (2 * Z.of_nat (i / 3)))
    (fun i => (Z.of_nat (i mod 3) mod 2 ^ 20)%Z) (fun i => (Z.of_nat (i / 3) mod 2 ^ 20)%Z).

Lemma demo_valid v n stored : v < 1000 -> 1 <= n -> NoDup stored -> (forall i, In i stored -> i < n) -> stored <> [] ->
  (Z.of_nat (length (ebsp_file (demo v n stored))) < 2 ^ 63)%Z -> ebsp_valid (demo v n stored).
Proof.
  intros Hv Hn ND LT NE L. unfold ebsp_valid.
  split; [exact Hn|]. split; [exact ND|]. split; [exact LT|]. split; [exact NE|]. split; [reflexivity|]. split; [cbn; lia|]. split; [cbn; lia|].
  split; [left; reflexivity|]. split; [repeat split; vm_compute; reflexivity|]. split; [split; [cbn [demo e_version]; lia|exact L]|].
  split; [intros i y x; apply Z.mod_pos_bound; reflexivity|]. split; [intros i; split; apply to_le_length|].
  intros i. cbn [demo e_mx e_my].
  pose proof (Z.mod_pos_bound (Z.of_nat (i mod 3)) (2 ^ 20) ltac:(reflexivity)). pose proof (Z.mod_pos_bound (Z.of_nat (i / 3)) (2 ^ 20) ltac:(reflexivity)). lia.
Qed.

Ltac demo_ok := apply demo_valid; [lia|lia|repeat constructor; cbn; intuition lia|cbn; intuition lia|discriminate|vm_compute; reflexivity].

(** A 2 by 3 map, patterns stored in another order. *)
Definition demo1 := demo 2 6 [3; 1; 2; 0; 5; 4].
Example demo1_valid : ebsp_valid demo1. Proof. unfold demo1. demo_ok. Qed.
Example demo1_countable : ebsp_countable demo1.
Proof.
  apply C28_small_files_are_countable; [exact demo1_valid|reflexivity|apply Nat.leb_le; vm_compute; reflexivity|vm_compute; discriminate|discriminate].
Qed.
Example demo1_grid : ebsp_grid decode1 demo1 2 3 (inject_Z 4) 0 (inject_Z 2) /\ off_tie (inject_Z 4) (inject_Z 2) /\ off_tie 0 (inject_Z 2).
Proof.
  split; [|split].
  - split; [reflexivity|]. split; [discriminate|]. intros r c R C.
    assert (RR : r = 0 \/ r = 1) by lia. assert (CC : c = 0 \/ c = 1 \/ c = 2) by lia.
    destruct RR as [->| ->]; destruct CC as [->|[->| ->]]; split; vm_compute; reflexivity.
  - intros k E. unfold Qeq, Qdiv, Qmult, Qplus, inject_Z, Qinv in E. cbn in E. lia.
  - intros k E. unfold Qeq, Qdiv, Qmult, Qplus, inject_Z, Qinv in E. cbn in E. lia.
Qed.
Example C28_complete_map_used : exists s, read_scan decode1 (ebsp_file demo1) = Some s /\ nav_shape s = [2; 3] /\ file_order s = [3; 1; 2; 0; 5; 4]%Z /\
  nth_error (patterns s) 3 = Some (pattern_pixels (e_pat demo1 3) 70 70).
Proof. eexists. split; [vm_compute; reflexivity|]. repeat split. Qed.

(** The same file read with positions that are off by some tenths of a step. *)
Definition decode_noisy (b : list Z) : Q := (decode1 b + (1 # 40) * decode1 b * decode1 b)%Q.
Example C28_noisy_positions_used : exists j k : Z, let e := demo1 in let step := (decode_noisy (e_bx e 1) - decode_noisy (e_bx e 0))%Q in ~ (step == 0)%Q /\
  (Qabs (decode_noisy (e_bx e 0) / step - inject_Z j) < 1 # 2)%Q /\ (Qabs (decode_noisy (e_bx e 5) / step - inject_Z (j + 2)) < 1 # 2)%Q /\
  (Qabs (decode_noisy (e_by e 0) / step - inject_Z k) < 1 # 2)%Q /\ (Qabs (decode_noisy (e_by e 5) / step - inject_Z (k + 1)) < 1 # 2)%Q.
Proof. exists 2%Z, 0%Z. vm_compute. repeat split; discriminate. Qed.

(** Version 5. *)
Definition demo5 := demo 5 6 [1; 4; 2; 0; 5; 3].
Example demo5_countable : ebsp_valid demo5 /\ ebsp_countable demo5.
Proof.
  assert (V : ebsp_valid demo5) by (unfold demo5; demo_ok). split; [exact V|].
  apply C28_small_files_are_countable; [exact V|reflexivity|apply Nat.leb_le; vm_compute; reflexivity|vm_compute; discriminate|].
  intros _ i E. injection E as <-. split; vm_compute; [reflexivity|split; discriminate].
Qed.

(** Patterns 0 and 2 of three, stored in order and out of order. *)
Lemma demo_missing v stored : v < 5 -> ebsp_valid (demo v 3 stored) ->
  5 * 1616 <= length (ebsp_file (demo v 3 stored)) -> (Z.of_nat (length (ebsp_file (demo v 3 stored))) <= 55050560)%Z -> ebsp_countable (demo v 3 stored).
Proof.
  intros V5 V B SM. pose proof (file_length_eq _ V) as L. set (e := demo v 3 stored) in *.
  assert (E5 : (e_version e <? 5) = true) by (apply Nat.ltb_lt; exact V5).
  assert (P : forall i, (0 <= ebsp_position e i <= 55050560)%Z).
  { intros i. destruct (place (e_stored e) i) as [j|] eqn:PL.
    - destruct (position_some e i j PL) as [E J]. rewrite E. nia.
    - unfold ebsp_position. rewrite PL. lia. }
  assert (R : ebsp_reach e = 55050560%Z) by (unfold ebsp_reach; rewrite E5; reflexivity).
  unfold ebsp_countable. rewrite E5. split; [exact B|]. split.
  - intros i _. rewrite R. pose proof (P i). pose proof (P (S i)). lia.
  - rewrite R. pose proof (P (e_n e - 1)). change (Z.of_nat (e_sy e)) with 70%Z. lia.
Qed.
Example C28_incomplete_map_in_order_used : ebsp_valid (demo 1 3 [0; 2]) /\ ebsp_countable (demo 1 3 [0; 2]) /\ StronglySorted lt (e_stored (demo 1 3 [0; 2])).
Proof.
  assert (V : ebsp_valid (demo 1 3 [0; 2])) by demo_ok. split; [exact V|].
  split; [apply demo_missing; [lia|exact V|apply Nat.leb_le; vm_compute; reflexivity|vm_compute; discriminate]|]. repeat constructor.
Qed.
Example C28_incomplete_map_out_of_order_used : ebsp_valid (demo 1 3 [2; 0]) /\ ebsp_countable (demo 1 3 [2; 0]) /\ ~ StronglySorted lt (e_stored (demo 1 3 [2; 0])) /\
  (forall i j, i < 3 -> j < 3 -> ebsp_pixels (demo 1 3 [2; 0]) i = ebsp_pixels (demo 1 3 [2; 0]) j -> i = j) /\
  exists s, read_scan decode1 (ebsp_file (demo 1 3 [2; 0])) = Some s /\ map1d_id s = [0; 2] /\ nth_error (patterns s) 0 = Some (pattern_pixels (e_pat (demo 1 3 [2; 0]) 2) 70 70).
Proof.
  assert (V : ebsp_valid (demo 1 3 [2; 0])) by demo_ok. split; [exact V|].
  split; [apply demo_missing; [lia|exact V|apply Nat.leb_le; vm_compute; reflexivity|vm_compute; discriminate]|].
  split; [intros S; apply StronglySorted_inv in S; destruct S as [_ F]; inversion F; lia|].
  split.
  { intros i j I J E. assert (H : hd 0%Z (ebsp_pixels (demo 1 3 [2; 0]) i) = hd 0%Z (ebsp_pixels (demo 1 3 [2; 0]) j)) by (rewrite E; reflexivity).
    assert (C : forall k, k < 3 -> hd 0%Z (ebsp_pixels (demo 1 3 [2; 0]) k) = (7 * Z.of_nat k)%Z).
    { intros [|[|[|k]]] K; [vm_compute; reflexivity|vm_compute; reflexivity|vm_compute; reflexivity|lia]. }
    rewrite !C in H by assumption. lia. }
  eexists. split; [vm_compute; reflexivity|]. split; reflexivity.
Qed.

(** Version 5, first record in the second row. *)
Example C28_version_5_used : let e := demo 5 6 [4; 1; 2; 0; 5; 3] in
  ebsp_valid e /\ hd_error (e_stored e) = Some 4 /\ (1 <= e_my e 4)%Z /\ guess_number_of_patterns 5 (ebsp_file e) = Some 5 /\ read_scan decode1 (ebsp_file e) = None.
Proof.
  cbv zeta. split; [demo_ok|]. split; [reflexivity|]. split; [vm_compute; discriminate|]. split; vm_compute; reflexivity.
Qed.

(** After version 1 the footer of a pattern says which beam coordinates follow. The reader finds out which, but for its memory map it leaves out
    the byte of a flag that is not set, so that records are taken to be shorter than they are stored unless both are there. *)
Theorem C28_footer v before (fx fy : Z) (x y : list Z) after : 2 <= v -> length x = 8 -> length y = 8 ->
  let foot := [fx] ++ (if (fx =? 0)%Z then [] else x) ++ [fy] ++ (if (fy =? 0)%Z then [] else y) in
  exists ft, get_footer v (before ++ foot ++ after) (length before) = Some ft /\
    has_x ft = negb (fx =? 0)%Z /\ has_y ft = negb (fy =? 0)%Z /\ stored_size ft = length foot /\ (dtype_size ft = length foot <-> fx <> 0%Z /\ fy <> 0%Z).
Proof.
  intros V LX LY foot. unfold get_footer. destruct (Nat.eqb_spec v 1); [lia|]. destruct (Nat.ltb_spec 1 v); [|lia].
  assert (U : forall a (b : Z) c, uint_at (a ++ [b] ++ c) (length a) 1 = Some b).
  { intros a b c. unfold uint_at. rewrite sub_at by reflexivity. cbn [option_map le]. f_equal. lia. }
  assert (E1 : uint_at (before ++ foot ++ after) (length before) 1 = Some fx) by (unfold foot; rewrite <- app_assoc; apply U).
  rewrite E1. cbn [bind].
  assert (E2 : uint_at (before ++ foot ++ after) (if negb (fx =? 0)%Z then length before + 9 else length before + 1) 1 = Some fy).
  { unfold foot. destruct (Z.eqb_spec fx 0); cbn [negb app].
    - replace (before ++ fx :: fy :: (if (fy =? 0)%Z then [] else y) ++ after) with ((before ++ [fx]) ++ [fy] ++ ((if (fy =? 0)%Z then [] else y) ++ after)) by (rewrite <- app_assoc; reflexivity).
      rewrite <- (U (before ++ [fx]) fy ((if (fy =? 0)%Z then [] else y) ++ after)). f_equal. rewrite app_length. reflexivity.
    - rewrite <- app_assoc. replace (before ++ fx :: x ++ (fy :: (if (fy =? 0)%Z then [] else y)) ++ after) with ((before ++ [fx] ++ x) ++ [fy] ++ ((if (fy =? 0)%Z then [] else y) ++ after)) by (rewrite <- !app_assoc; reflexivity).
      rewrite <- (U (before ++ [fx] ++ x) fy ((if (fy =? 0)%Z then [] else y) ++ after)). f_equal. rewrite !app_length, LX. reflexivity. }
  rewrite E2. cbn [bind]. eexists. split; [reflexivity|]. cbn [has_x has_y stored_size dtype_size]. split; [reflexivity|]. split; [reflexivity|].
  unfold foot. destruct (Z.eqb_spec fx 0), (Z.eqb_spec fy 0); cbn [negb app length]; rewrite ?app_length; cbn [length]; rewrite ?LX, ?LY; cbn; split; try reflexivity; split; try lia; tauto.
Qed.

(** Versions after 1 without beam positions: flags 0, no coordinates. The second and later patterns are read from the
    wrong bytes. *)
Definition flagless (sy sx : nat) (pat : nat -> nat -> nat -> Z) : file :=
  let record i := to_le 4 0 ++ to_le 4 (Z.of_nat sy) ++ to_le 4 (Z.of_nat sx) ++ to_le 4 (Z.of_nat (sy * sx)) ++ pattern_pixels (pat i) sy sx ++ [0; 0]%Z in
  to_le 8 (-2) ++ flat_map (fun i => to_le 8 (Z.of_nat (8 + 3 * 8 + i * (16 + sy * sx + 2)))) (seq 0 3) ++ flat_map record (seq 0 3).
Theorem C28_no_beam_positions_refuted : let pat i y x := (Z.of_nat (i + y + x) mod 256)%Z in
  exists s, read_scan decode1 (flagless 70 70 pat) = Some s /\ nav_shape s = [3] /\
    nth_error (patterns s) 0 = Some (pattern_pixels (pat 0) 70 70) /\ nth_error (patterns s) 1 <> Some (pattern_pixels (pat 1) 70 70).
Proof. cbv zeta. eexists. split; [vm_compute; reflexivity|]. split; [reflexivity|]. split; [vm_compute; reflexivity|]. vm_compute. discriminate. Qed.

Example C28_footer_used : option_map dtype_size (get_footer 3 [9; 1; 0; 0; 0; 0; 0; 0; 0; 0; 0]%Z 1) = Some 9 /\ option_map stored_size (get_footer 3 [9; 1; 0; 0; 0; 0; 0; 0; 0; 0; 0]%Z 1) = Some 10.
Proof. split; reflexivity. Qed.

Print Assumptions C28_complete_map.
Print Assumptions C28_version_0.
Print Assumptions C28_incomplete_map_in_order_partial.
Print Assumptions C28_version_5_first_row_refuted.
