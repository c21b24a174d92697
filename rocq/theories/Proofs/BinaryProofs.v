From Coq Require Import List Arith ZArith Bool Lia.
From Verif Require Import Model.Binary.
Import ListNotations.
Local Open Scope nat_scope.

Lemma to_le_length n : forall z, length (to_le n z) = n.
Proof. induction n as [|n IH]; intros z; cbn; [reflexivity|rewrite IH; reflexivity]. Qed.
Lemma le_to_le n : forall z, le (to_le n z) = (z mod 256 ^ Z.of_nat n)%Z.
Proof.
  induction n as [|n IH]; intros z; cbn [to_le le]; [cbn; rewrite Z.mod_1_r; reflexivity|].
  rewrite IH. rewrite Nat2Z.inj_succ, Z.pow_succ_r by lia.
  rewrite Z.rem_mul_r by lia. reflexivity.
Qed.
Lemma le_to_le_small n z : (0 <= z < 256 ^ Z.of_nat n)%Z -> le (to_le n z) = z.
Proof. intros H. rewrite le_to_le. apply Z.mod_small. exact H. Qed.
Lemma sle_to_le_small n z : (1 <= n) -> (- (256 ^ Z.of_nat n / 2) <= z < 256 ^ Z.of_nat n / 2)%Z -> sle (to_le n z) = z.
Proof.
  intros Hn H. unfold sle. rewrite to_le_length, le_to_le. set (m := (256 ^ Z.of_nat n)%Z) in *.
  assert (M : exists h, (m = 2 * h /\ 0 < h)%Z).
  { exists (128 * 256 ^ (Z.of_nat n - 1))%Z. split; [|assert (0 < 256 ^ (Z.of_nat n - 1))%Z by (apply Z.pow_pos_nonneg; lia); lia].
    unfold m. replace (Z.of_nat n) with (Z.succ (Z.of_nat n - 1)) at 1 by lia. rewrite Z.pow_succ_r by lia. lia. }
  destruct M as [h [EM PH]]. rewrite EM in *. rewrite (Z.mul_comm 2 h), Z.div_mul in H by lia.
  destruct (Z_lt_le_dec z 0) as [N|P].
  - rewrite <- (Z_mod_plus_full z 1 (2 * h)). rewrite Z.mod_small by lia.
    destruct (Z.ltb_spec (2 * (z + 1 * (2 * h))) (2 * h)); lia.
  - rewrite Z.mod_small by lia. destruct (Z.ltb_spec (2 * z) (2 * h)); lia.
Qed.

Lemma sub_app f g off n : sub f off n <> None -> sub (f ++ g) off n = sub f off n.
Proof.
  unfold sub. destruct (Nat.leb_spec (off + n) (length f)) as [H|H]; [|congruence]. intros _.
  rewrite app_length. destruct (Nat.leb_spec (off + n) (length f + length g)); [|lia]. f_equal.
  rewrite skipn_app, firstn_app, skipn_length. replace (n - (length f - off)) with 0 by lia.
  rewrite firstn_O, app_nil_r. reflexivity.
Qed.
Lemma sub_skip a f off n : sub (a ++ f) (length a + off) n = sub f off n.
Proof.
  unfold sub. rewrite app_length. destruct (Nat.leb_spec (off + n) (length f)) as [H|H].
  - destruct (Nat.leb_spec (length a + off + n) (length a + length f)); [|lia]. f_equal.
    rewrite skipn_app, skipn_all2 by lia. cbn. f_equal. f_equal. lia.
  - destruct (Nat.leb_spec (length a + off + n) (length a + length f)); [lia|reflexivity].
Qed.
(** Reading back a part written between others. *)
Lemma sub_here a x b : sub (a ++ x ++ b) (length a) (length x) = Some x.
Proof.
  rewrite <- (Nat.add_0_r (length a)), sub_skip. unfold sub. rewrite app_length.
  destruct (Nat.leb_spec (0 + length x) (length x + length b)); [|lia]. cbn. rewrite firstn_app, Nat.sub_diag, firstn_all, firstn_O, app_nil_r. reflexivity.
Qed.
Lemma sub_at a x b off n : off = length a -> n = length x -> sub (a ++ x ++ b) off n = Some x.
Proof. intros -> ->. apply sub_here. Qed.

Lemma items_length size n : forall bs, length (items size n bs) = n.
Proof. induction n as [|n IH]; intros bs; cbn; [reflexivity|rewrite IH; reflexivity]. Qed.
Lemma skipn_skipn' {A} (l : list A) a b : skipn a (skipn b l) = skipn (b + a) l.
Proof. revert l. induction b as [|b IH]; intros l; [reflexivity|]. destruct l; [rewrite !skipn_nil; reflexivity|]. cbn. apply IH. Qed.
Lemma items_nth size n : forall bs i, i < n -> nth_error (items size n bs) i = Some (le (firstn size (skipn (i * size) bs))).
Proof.
  induction n as [|n IH]; intros bs i H; [lia|]. destruct i as [|i]; cbn [items nth_error]; [reflexivity|].
  rewrite IH by lia. rewrite skipn_skipn'. reflexivity.
Qed.

Lemma ravel_lt s : forall idx, in_shape s idx -> ravel s idx < size_of s.
Proof.
  induction s as [|n s IH]; intros [|i idx] H; cbn in *; try tauto; [lia|].
  destruct H as [H1 H2]. specialize (IH _ H2). fold (size_of s) in *. nia.
Qed.
Lemma size_squeeze s : size_of (squeeze_shape s) = size_of s.
Proof.
  induction s as [|n s IH]; [reflexivity|]. cbn [squeeze_shape filter]. destruct (Nat.eqb_spec n 1) as [->|H]; cbn [negb].
  - change (size_of (squeeze_shape s) = size_of (1 :: s)). rewrite IH. cbn. unfold size_of. lia.
  - change (n * size_of (squeeze_shape s) = n * size_of s). rewrite IH. reflexivity.
Qed.
Lemma ravel_squeeze s : forall idx, in_shape s idx -> ravel (squeeze_shape s) (squeeze_index s idx) = ravel s idx.
Proof.
  induction s as [|n s IH]; intros [|i idx] H; cbn [in_shape] in H; try contradiction; [reflexivity|].
  destruct H as [H1 H2]. cbn [squeeze_shape filter squeeze_index ravel]. destruct (Nat.eqb_spec n 1) as [->|E]; cbn [negb].
  - change (filter _ s) with (squeeze_shape s). rewrite IH by exact H2. replace i with 0 by lia. reflexivity.
  - cbn [ravel]. change (filter _ s) with (squeeze_shape s). rewrite IH, size_squeeze by exact H2. reflexivity.
Qed.
Lemma at_squeeze a idx : in_shape (shape a) idx -> at_ (squeeze a) (squeeze_index (shape a) idx) = at_ a idx.
Proof. intros H. unfold at_, squeeze. cbn [shape elems]. rewrite ravel_squeeze by exact H. reflexivity. Qed.

Lemma skipn_prefix {A} (p l : list A) n : length p = n -> skipn n (p ++ l) = l.
Proof. intros <-. rewrite skipn_app, skipn_all, Nat.sub_diag. reflexivity. Qed.
Lemma firstn_prefix {A} (p l : list A) n : length p = n -> firstn n (p ++ l) = p.
Proof. intros <-. rewrite firstn_app, firstn_all, Nat.sub_diag, firstn_O, app_nil_r. reflexivity. Qed.

Lemma items_flat size ps t : Forall (fun v => (0 <= v < 256 ^ Z.of_nat size)%Z) ps ->
  items size (length ps) (flat_map (to_le size) ps ++ t) = ps.
Proof.
  induction 1 as [|v ps V F IH]; [reflexivity|]. cbn [length items flat_map]. rewrite <- app_assoc.
  rewrite firstn_prefix, skipn_prefix by apply to_le_length. rewrite le_to_le_small by exact V. f_equal. exact IH.
Qed.
Lemma flat_le_length size ps : length (flat_map (to_le size) ps) = length ps * size.
Proof. induction ps as [|v ps IH]; [reflexivity|]. cbn [flat_map length]. rewrite app_length, to_le_length, IH. lia. Qed.

Lemma flat_map_const_nth {A} (g : nat -> list A) L n : (forall i, length (g i) = L) -> forall a i j, i < n -> j < L ->
  nth_error (flat_map g (seq a n)) (i * L + j) = nth_error (g (a + i)) j.
Proof.
  intros HL. induction n as [|n IH]; intros a i j Hi Hj; [lia|]. cbn [seq flat_map]. destruct i as [|i].
  - rewrite nth_error_app1 by (rewrite HL; lia). rewrite Nat.add_0_r. reflexivity.
  - rewrite nth_error_app2 by (rewrite HL; lia). rewrite HL. replace (S i * L + j - L) with (i * L + j) by lia.
    rewrite IH by lia. f_equal. f_equal. lia.
Qed.
Lemma flat_map_const_length {A} (g : nat -> list A) L n : (forall i, length (g i) = L) -> forall a, length (flat_map g (seq a n)) = n * L.
Proof. intros HL. induction n as [|n IH]; intros a; [reflexivity|]. cbn. rewrite app_length, HL, IH. reflexivity. Qed.
