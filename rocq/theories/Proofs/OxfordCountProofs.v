From Coq Require Import String List Arith ZArith QArith Qround Bool Lia Lqa Permutation.
From Verif Require Import Model.Binary Model.OxfordBinary Spec.BinaryFiles Proofs.ListLemmas Proofs.BinaryProofs Proofs.EdaxBinaryProofs Proofs.OxfordBinaryProofs.
Import ListNotations.
Local Open Scope nat_scope.

Lemma first_jump test : forall a k, S k < length a -> (forall j, j < k -> test (nth (S j) a 0 - nth j a 0)%Z = false) ->
  test (nth (S k) a 0 - nth k a 0)%Z = true -> first_where test (diff a) = Some k.
Proof.
  intros a k. revert a. induction k as [|k IH]; intros a L N T.
  - destruct a as [|x [|y r]]; cbn in L; try lia. cbn in T |- *. rewrite T. reflexivity.
  - destruct a as [|x [|y r]]; cbn in L; try lia. pose proof (N 0 ltac:(lia)) as N0. cbn [nth] in N0. change (diff (x :: y :: r)) with ((y - x)%Z :: diff (y :: r)). cbn [first_where]. rewrite N0.
    rewrite (IH (y :: r)); [reflexivity|cbn; lia| |exact T]. intros j J. apply (N (S j)). lia.
Qed.
Lemma int64s_app n m : forall a t, length a = n * 8 -> int64s (n + m) (a ++ t) = int64s n a ++ int64s m t.
Proof.
  induction n as [|n IH]; intros a t L; [destruct a; [reflexivity|discriminate]|]. cbn [Nat.add int64s app].
  assert (L1 : length (firstn 8 a) = 8) by (rewrite firstn_length; lia). assert (L2 : length (skipn 8 a) = n * 8) by (rewrite skipn_length; lia).
  rewrite <- (firstn_skipn 8 a) at 1 2. rewrite <- app_assoc, firstn_prefix, skipn_prefix by exact L1. rewrite IH by exact L2. reflexivity.
Qed.
Lemma int64s_length n : forall bs, length (int64s n bs) = n. Proof. induction n; intros; cbn; auto. Qed.
Lemma le_app a : forall b, le (a ++ b) = (le a + 256 ^ Z.of_nat (length a) * le b)%Z.
Proof.
  induction a as [|x a IH]; intros b; [cbn [app le length]; rewrite Z.pow_0_r; lia|]. cbn [app le length]. rewrite IH, Nat2Z.inj_succ, Z.pow_succ_r by lia. ring.
Qed.
(** Two int32 in a row, read as one int64. *)
Lemma two_words a b t : (0 <= a < 2 ^ 31)%Z -> (0 <= b < 2 ^ 31)%Z -> sle (firstn 8 (to_le 4 a ++ to_le 4 b ++ t)) = (a + b * 2 ^ 32)%Z.
Proof.
  intros A B. rewrite app_assoc, firstn_prefix by (rewrite app_length, !to_le_length; reflexivity).
  unfold sle. rewrite app_length, le_app, !to_le_length, !le_to_le_small by (cbn; lia).
  change (256 ^ Z.of_nat 4)%Z with (2 ^ 32)%Z. change (256 ^ Z.of_nat (4 + 4))%Z with (2 ^ 64)%Z.
  destruct (Z.ltb_spec (2 * (a + 2 ^ 32 * b)) (2 ^ 64)); lia.
Qed.

Section File.
Variable e : ebsp.
Hypothesis VALID : ebsp_valid e.
Notation v := (e_version e). Notation n := (e_n e). Notation f := (ebsp_file e).

Lemma reach_eq : max_jump v = ebsp_reach e.
Proof using. unfold max_jump, ebsp_reach, header_size. destruct (v <? 5); reflexivity. Qed.
Lemma after_table m : skipn (starts_position v) f = starts_bytes e ++ flat_map (ebsp_record e) (e_stored e) /\
  int64s (n + m) (skipn (starts_position v) f) = map (ebsp_position e) (seq 0 n) ++ int64s m (flat_map (ebsp_record e) (e_stored e)).
Proof using VALID.
  assert (E : skipn (starts_position v) f = starts_bytes e ++ flat_map (ebsp_record e) (e_stored e)).
  { unfold ebsp_file. rewrite skipn_prefix by (apply start_length; exact VALID). reflexivity. }
  split; [exact E|]. rewrite E, int64s_app; [rewrite parse_starts by exact VALID; reflexivity|].
  unfold starts_bytes. rewrite flat_8_length, seq_length. reflexivity.
Qed.
Lemma positions_nth m j : j < n -> nth j (map (ebsp_position e) (seq 0 n) ++ m) 0%Z = ebsp_position e j.
Proof using.
  intros J. rewrite app_nth1 by (rewrite map_length, seq_length; exact J).
  rewrite (nth_indep _ 0%Z (ebsp_position e 0)) by (rewrite map_length, seq_length; exact J). rewrite map_nth, seq_nth by exact J. reflexivity.
Qed.
Lemma positions_next m j : nth (n + j) (map (ebsp_position e) (seq 0 n) ++ m) 0%Z = nth j m 0%Z.
Proof using. rewrite app_nth2 by (rewrite map_length, seq_length; lia). rewrite map_length, seq_length. f_equal. lia. Qed.
Lemma positions_here m : nth n (map (ebsp_position e) (seq 0 n) ++ m) 0%Z = nth 0 m 0%Z.
Proof using. pose proof (positions_next m 0) as P. rewrite Nat.add_0_r in P. exact P. Qed.
Lemma first_record : exists i t, hd_error (e_stored e) = Some i /\ flat_map (ebsp_record e) (e_stored e) = ebsp_header e i ++ t.
Proof using VALID.
  destruct VALID as [_ [_ [_ [NE _]]]]. destruct (e_stored e) as [|i l]; [congruence|]. exists i. eexists. split; [reflexivity|].
  cbn [flat_map]. unfold ebsp_record at 1. rewrite <- app_assoc. reflexivity.
Qed.
Lemma max_n_big : (n + 2) * (1600 + (if v <? 5 then 16 else 24)) <= length f -> exists m, length f / (1600 + header_size v) = n + S (S m).
Proof using.
  intros H. fold (header_size v) in H. assert (n + 2 <= length f / (1600 + header_size v)).
  { apply Nat.div_le_lower_bound; [unfold header_size; destruct (v <? 5); lia|]. rewrite Nat.mul_comm. exact H. }
  exists (length f / (1600 + header_size v) - (n + 2)). lia.
Qed.
Lemma n_pos : 1 <= n. Proof using VALID. destruct VALID; assumption. Qed.
Lemma near_test j : ebsp_near e -> S j < n -> (max_jump v <? Z.abs (ebsp_position e (S j) - ebsp_position e j))%Z = false.
Proof using. intros H J. apply Z.ltb_ge. rewrite reach_eq. apply H. exact J. Qed.

Lemma count_ok : ebsp_countable e -> guess_number_of_patterns v f = Some n.
Proof using VALID.
  intros [BIG [NEAR END]]. destruct (max_n_big BIG) as [m M]. pose proof n_pos as NP. unfold guess_number_of_patterns. rewrite M.
  rewrite (proj2 (after_table (S (S m)))). destruct first_record as [i [t [HD FR]]]. rewrite FR.
  assert (SY : (1 <= Z.of_nat (e_sy e) < 2 ^ 31)%Z) by (destruct VALID as [_ [_ [_ [_ [_ [Y [_ [_ [[B _] _]]]]]]]]]; lia).
  assert (LEN : forall w, length (map (ebsp_position e) (seq 0 n) ++ int64s (S (S m)) w) = n + S (S m)) by (intros w; rewrite app_length, map_length, seq_length, int64s_length; reflexivity).
  unfold ebsp_header. destruct (v <? 5) eqn:E5.
  - cbn [app]. rewrite (first_jump _ _ (n - 1)).
    + cbn [bind]. f_equal. lia.
    + rewrite LEN. lia.
    + intros j J. rewrite !positions_nth by lia. apply near_test; [exact NEAR|lia].
    + rewrite (positions_nth _ (n - 1)) by lia. replace (S (n - 1)) with (n + 0) by lia. rewrite positions_next. cbn [int64s nth]. rewrite <- !app_assoc.
      rewrite two_words by lia. apply Z.ltb_lt. rewrite reach_eq. pose proof (position_range e VALID (n - 1)). rewrite Z.abs_eq; unfold ebsp_reach in *; rewrite ?E5 in *; lia.
  - destruct END as [i' [HD' [MY [MX1 [MX2 MX3]]]]]. rewrite HD in HD'. injection HD' as <-.
    assert (MB : (0 <= e_mx e i < 2 ^ 31)%Z) by (destruct VALID as [_ [_ [_ [_ [_ [_ [_ [_ [_ [_ [_ [_ B]]]]]]]]]]]]; specialize (B i); lia).
    rewrite (first_jump _ _ n).
    + reflexivity.
    + rewrite LEN. lia.
    + intros j J. destruct (Nat.eq_dec (S j) n) as [EJ|EJ].
      * rewrite (positions_nth _ j) by lia. replace (S j) with (n + 0) by lia. rewrite positions_next. cbn [int64s nth]. rewrite <- !app_assoc, two_words by lia.
        apply Z.ltb_ge. rewrite reach_eq, MY. replace j with (n - 1) by lia. replace (e_mx e i + 0 * 2 ^ 32)%Z with (e_mx e i) by lia. exact MX2.
      * rewrite !positions_nth by lia. apply near_test; [exact NEAR|lia].
    + replace (S n) with (n + 1) by lia. rewrite positions_next. replace (nth n _ 0%Z) with (e_mx e i).
      * cbn [int64s nth]. rewrite <- !app_assoc. rewrite (app_assoc (to_le 4 (e_mx e i))), skipn_prefix by (rewrite app_length, !to_le_length; reflexivity).
        rewrite two_words by lia. apply Z.ltb_lt. rewrite reach_eq. rewrite Z.abs_eq; unfold ebsp_reach in *; rewrite ?E5 in *; lia.
      * rewrite positions_here. cbn [int64s nth]. rewrite <- !app_assoc, two_words by lia. rewrite MY. lia.
Qed.

(** Version 5 and later with the number after the table out of reach. *)
Lemma count_short i : (v <? 5) = false -> (n + 2) * 1624 <= length f -> ebsp_near e -> hd_error (e_stored e) = Some i ->
  (0 <= e_mx e i)%Z -> (0 <= e_my e i)%Z -> (ebsp_reach e < Z.abs (e_mx e i + e_my e i * 2 ^ 32 - ebsp_position e (n - 1)))%Z ->
  guess_number_of_patterns v f = Some (n - 1).
Proof using VALID.
  intros E5 BIG NEAR HD MX MY FAR. pose proof n_pos as NP.
  destruct max_n_big as [m M]; [rewrite E5; exact BIG|]. unfold guess_number_of_patterns. rewrite M, E5.
  rewrite (proj2 (after_table (S (S m)))). destruct first_record as [i' [t [HD' FR]]]. rewrite HD in HD'. injection HD' as <-. rewrite FR.
  assert (MB : (e_mx e i < 2 ^ 31 /\ e_my e i < 2 ^ 31)%Z) by (destruct VALID as [_ [_ [_ [_ [_ [_ [_ [_ [_ [_ [_ [_ B]]]]]]]]]]]]; specialize (B i); lia).
  unfold ebsp_header. rewrite E5. rewrite (first_jump _ _ (n - 1)).
  - reflexivity.
  - rewrite app_length, map_length, seq_length, int64s_length. lia.
  - intros j J. rewrite !positions_nth by lia. apply near_test; [exact NEAR|lia].
  - rewrite (positions_nth _ (n - 1)) by lia. replace (S (n - 1)) with (n + 0) by lia. rewrite positions_next. cbn [int64s nth]. rewrite <- !app_assoc, two_words by lia.
    apply Z.ltb_lt. rewrite reach_eq. exact FAR.
Qed.
(** Then the column, row and 0 of the first record are taken for the compression, and the height and width of patterns. *)
Lemma short_shape decode s : (v <? 5) = false -> guess_number_of_patterns v f = Some (n - 1) ->
  read_scan decode f = Some s -> snd (sig_shape s) = 0.
Proof using VALID.
  intros E5 G. unfold read_scan. rewrite read_version by exact VALID. cbn [bind]. rewrite G. cbn [bind]. rewrite E5. pose proof n_pos as NP.
  destruct (sub f (starts_position v) ((n - 1) * 8)) as [sb|]; [|discriminate]. cbn [bind].
  destruct first_record as [i [t [HD FR]]].
  assert (C : int_at f (starts_position v + (n - 1) * 8 + 8 + 8) 4 = Some 0%Z).
  { unfold int_at. replace (starts_position v + (n - 1) * 8 + 8 + 8) with (ebsp_first e + 0 * ebsp_record_size e + 8) by (rewrite (first_eq e VALID); lia).
    assert (N0 : nth_error (e_stored e) 0 = Some i) by (destruct (e_stored e); [discriminate|exact HD]).
    erewrite (sub_record e VALID 0 i 8 4 (to_le 4 0) (to_le 4 (e_mx e i) ++ to_le 4 (e_my e i))); [reflexivity|exact N0| |rewrite app_length, !to_le_length; reflexivity|apply to_le_length].
    unfold ebsp_record, ebsp_header. rewrite E5, <- !app_assoc. reflexivity. }
  destruct (int_at f (starts_position v + (n - 1) * 8 + 8) 4) as [compressed|]; [|discriminate]. cbn [bind].
  destruct (negb (compressed =? 0)%Z); [discriminate|].
  destruct (int_at f (starts_position v + (n - 1) * 8 + 8 + 4) 4) as [nrows|]; [|discriminate]. cbn [bind]. rewrite C. cbn [bind].
  destruct (int_at f (starts_position v + (n - 1) * 8 + 8 + 12) 4) as [nb|]; [|discriminate]. cbn [bind Z.to_nat]. cbv zeta.
  destruct (get_footer _ _ _) as [ft|]; [|discriminate]. cbn [bind].
  match goal with |- bind ?x _ = _ -> _ => destruct x as [[[shape steps] nms]|]; [|discriminate] end. cbn [bind].
  destruct (sub f _ _) as [bytes|]; [|discriminate]. cbn [bind].
  match goal with |- bind ?x _ = _ -> _ => destruct x as [data|]; [|discriminate] end. cbn [bind].
  destruct (negb _); [discriminate|].
  match goal with |- bind ?x _ = _ -> _ => destruct x as [bx|]; [|discriminate] end. cbn [bind].
  match goal with |- bind ?x _ = _ -> _ => destruct x as [by_|]; [|discriminate] end. cbn [bind].
  match goal with |- bind ?x _ = _ -> _ => destruct x as [mx|]; [|discriminate] end. cbn [bind].
  match goal with |- bind ?x _ = _ -> _ => destruct x as [my|]; [|discriminate] end. cbn [bind].
  intros E. injection E as <-. reflexivity.
Qed.
End File.

Local Open Scope Q_scope.
(** Rounding. *)
Lemma around_comp p q : p == q -> around p = around q.
Proof.
  intros E. unfold around. rewrite (Qfloor_comp p q E). rewrite (Qcompare_comp (p - inject_Z (Qfloor q)) (q - inject_Z (Qfloor q))%Q ltac:(rewrite E; reflexivity) (1 # 2) (1 # 2) ltac:(reflexivity)). reflexivity.
Qed.
Lemma floor_add q k : Qfloor (q + inject_Z k) = (Qfloor q + k)%Z.
Proof.
  destruct q as [a b]. unfold Qplus, inject_Z, Qfloor. cbn. rewrite Z.mul_1_r, Pos.mul_1_r. apply Z.div_add. lia.
Qed.
Lemma around_add q k : (forall j : Z, ~ q == inject_Z j + (1 # 2)) -> around (q + inject_Z k) = (around q + k)%Z.
Proof.
  intros T. unfold around. rewrite floor_add.
  assert (E : q + inject_Z k - inject_Z (Qfloor q + k) == q - inject_Z (Qfloor q)) by (rewrite inject_Z_plus; ring).
  rewrite (Qcompare_comp _ _ E (1 # 2) (1 # 2) ltac:(reflexivity)).
  destruct (q - inject_Z (Qfloor q) ?= 1 # 2)%Q eqn:C; try lia.
  exfalso. apply Qeq_alt in C. apply (T (Qfloor q)). rewrite <- C. ring.
Qed.
(** At a tie. *)
Lemma around_tie q k : q == inject_Z k + (1 # 2) -> around q = if Z.even k then k else (k + 1)%Z.
Proof.
  intros E. unfold around. assert (F : Qfloor q = k).
  { rewrite (Qfloor_comp _ _ E), Qplus_comm. rewrite floor_add. reflexivity. }
  rewrite F. assert (D : q - inject_Z k == 1 # 2) by (rewrite E; ring). rewrite (Qcompare_comp _ _ D (1 # 2) (1 # 2) ltac:(reflexivity)). reflexivity.
Qed.
