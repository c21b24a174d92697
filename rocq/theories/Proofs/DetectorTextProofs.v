From Coq Require Import Ascii String ZArith Arith Reals List Bool Lia Lra Psatz Decimal DecimalString DecimalNat.
From Verif Require Import Model.Detector Model.DetectorText Proofs.DetectorProofs.
Import ListNotations.
Local Open Scope string_scope.
Local Open Scope list_scope.
Local Open Scope nat_scope.

Lemma append_nil : forall s : string, (s ++ "")%string = s.
Proof. induction s as [|a s IH]; cbn; congruence. Qed.
Lemma append_assoc : forall a b c : string, ((a ++ b) ++ c)%string = (a ++ b ++ c)%string.
Proof. induction a as [|x a IH]; intros; cbn; congruence. Qed.

(** Characters of a text. *)
Fixpoint every (P : ascii -> bool) (s : string) : bool := match s with EmptyString => true | String a r => P a && every P r end.
Lemma every_append : forall P a b, every P (a ++ b)%string = every P a && every P b.
Proof. induction a as [|x a IH]; intros; cbn; [reflexivity|]. now rewrite IH, andb_assoc. Qed.
Lemma every_weaken : forall P Q s, (forall a, P a = true -> Q a = true) -> every P s = true -> every Q s = true.
Proof. induction s as [|a s IH]; intros H E; cbn in *; [reflexivity|]. apply andb_true_iff in E as [A B]. now rewrite (H a A), IH. Qed.

Lemma uint_digits : forall u, every is_digit (NilEmpty.string_of_uint u) = true.
Proof. induction u; cbn; [reflexivity|..]; assumption. Qed.
Lemma show_nat_digits : forall n, every is_digit (show_nat n) = true.
Proof. intros. apply uint_digits. Qed.
Lemma to_uint_not_nil : forall n, Nat.to_uint n <> Nil.
Proof.
  intros n E. pose proof (Unsigned.to_of (Nat.to_uint n)) as H. rewrite Unsigned.of_to in H. rewrite E in H. discriminate H.
Qed.
Lemma show_nat_first : forall n, exists a r, show_nat n = String a r /\ is_digit a = true.
Proof.
  intros n. pose proof (show_nat_digits n) as D. unfold show_nat in *. pose proof (to_uint_not_nil n) as N.
  destruct (Nat.to_uint n); [contradiction|..]; cbn in *; eexists; eexists; split; reflexivity.
Qed.
Lemma digit_not : forall a c, is_digit a = true -> is_digit c = false -> Ascii.eqb a c = false.
Proof. intros a c A C. destruct (Ascii.eqb_spec a c) as [->|]; [congruence|reflexivity]. Qed.

(** Whole numbers. *)
Lemma read_show_nat : forall n, read_int (show_nat n) = Some n.
Proof.
  intros n. unfold read_int. destruct (show_nat_first n) as (a & r & E & D).
  assert (L : lstrip (show_nat n) = show_nat n).
  { rewrite E. pose proof (digit_not a " " D eq_refl) as N. destruct a as [[] [] [] [] [] [] [] []]; try reflexivity; discriminate. }
  rewrite L. rewrite E. cbv iota. rewrite <- E. unfold show_nat. rewrite NilEmpty.usu. f_equal. apply Unsigned.of_to.
Qed.
Lemma read_space_show_nat : forall n, read_int (" " ++ show_nat n)%string = Some n.
Proof. intros. exact (read_show_nat n). Qed.

(** Splitting. *)
Lemma split_none : forall c s, every (fun a => negb (Ascii.eqb a c)) s = true -> split c s = [s].
Proof.
  induction s as [|a s IH]; intros H; cbn in *; [reflexivity|]. apply andb_true_iff in H as [A B]. apply negb_true_iff in A. rewrite A.
  now rewrite (IH B).
Qed.
Lemma split_append : forall c s t, every (fun a => negb (Ascii.eqb a c)) s = true -> split c (s ++ String c t)%string = s :: split c t.
Proof.
  induction s as [|a s IH]; intros t H; cbn in *; [now rewrite Ascii.eqb_refl|]. apply andb_true_iff in H as [A B]. apply negb_true_iff in A. rewrite A.
  now rewrite (IH t B).
Qed.
Lemma digits_without : forall c s, is_digit c = false -> every is_digit s = true -> every (fun a => negb (Ascii.eqb a c)) s = true.
Proof. intros c s C. apply every_weaken. intros a A. now rewrite (digit_not a c A C). Qed.

Lemma without_last_append : forall s a, without_last (s ++ String a "")%string = s.
Proof. induction s as [|x s IH]; intros a; [reflexivity|]. cbn. rewrite IH. now destruct s. Qed.

Lemma join_cons : forall sep s t l, join sep (s :: t :: l) = (s ++ sep ++ join sep (t :: l))%string.
Proof. reflexivity. Qed.
Lemma split_tuple : forall l n, exists ts, split "," (" " ++ join ", " (map show_nat (n :: l)))%string = ts /\ map read_int ts = map Some (n :: l).
Proof.
  induction l as [|m l IH]; intros n; eexists; (split; [reflexivity|]).
  - cbn [map join]. rewrite split_none.
    + cbn [map]. now rewrite read_space_show_nat.
    + rewrite every_append. cbn [every andb]. cbn. apply digits_without; [reflexivity|apply show_nat_digits].
  - destruct (IH m) as (ts & E & F). change (map show_nat (n :: m :: l)) with (show_nat n :: show_nat m :: map show_nat l).
    rewrite join_cons. rewrite <- append_assoc. change (", " ++ ?x)%string with (String "," (" " ++ x)%string).
    rewrite split_append.
    + change (show_nat m :: map show_nat l) with (map show_nat (m :: l)). rewrite E. cbn [map]. rewrite F. now rewrite read_space_show_nat.
    + rewrite every_append. cbn [every andb]. cbn. apply digits_without; [reflexivity|apply show_nat_digits].
Qed.
Lemma all_some_map : forall A (l : list A), all_some (map Some l) = Some l.
Proof. induction l as [|x l IH]; cbn; [reflexivity|]. now rewrite IH. Qed.
Lemma read_show_tuple : forall n m l, read_tuple (show_tuple (n :: m :: l)) = Some (n :: m :: l).
Proof.
  intros n m l. unfold read_tuple, show_tuple. change ("(" ++ ?x)%string with (String "(" x). cbn [without_first].
  rewrite without_last_append. destruct (split_tuple l m) as (ts & E & F).
  change (map show_nat (n :: m :: l)) with (show_nat n :: show_nat m :: map show_nat l). rewrite join_cons.
  change (", " ++ ?x)%string with (String "," (" " ++ x)%string). rewrite split_append by (apply digits_without; [reflexivity|apply show_nat_digits]).
  change (show_nat m :: map show_nat l) with (map show_nat (m :: l)). rewrite E. cbn [map]. rewrite F, read_show_nat.
  exact (all_some_map _ (n :: m :: l)).
Qed.
Lemma read_show_tuple_1 : forall n, read_tuple (show_tuple [n]) = None.
Proof.
  intros n. unfold read_tuple, show_tuple. change ("(" ++ ?x)%string with (String "(" x). cbn [without_first].
  change ",)"%string with ("," ++ String ")" "")%string. rewrite <- append_assoc, without_last_append.
  rewrite split_append by (apply digits_without; [reflexivity|apply show_nat_digits]). cbn [map all_some split]. rewrite read_show_nat. reflexivity.
Qed.

(** Decimal numbers. *)
Lemma scan_uint : forall u rest v k, scan (NilEmpty.string_of_uint u ++ rest)%string (Z.of_nat v) false k = scan rest (Z.of_nat (Nat.of_uint_acc u v)) false k.
Proof.
  induction u; intros rest v k; cbn [NilEmpty.string_of_uint append Nat.of_uint_acc]; [reflexivity|..];
    rewrite Nat.tail_mul_spec; cbn [scan Ascii.eqb Bool.eqb];
    match goal with |- context [is_digit ?a] => change (is_digit a) with true end; cbv iota;
    rewrite <- IHu; f_equal;
    match goal with |- context [nat_of_ascii ?a] => let n := eval vm_compute in (nat_of_ascii a) in change (nat_of_ascii a) with n end; lia.
Qed.
Lemma scan_nat : forall n rest k, scan (show_nat n ++ rest)%string 0 false k = scan rest (Z.of_nat n) false k.
Proof.
  intros. unfold show_nat. rewrite (scan_uint _ rest 0 k). f_equal. change (Nat.of_uint_acc (Nat.to_uint n) 0) with (Nat.of_uint (Nat.to_uint n)).
  now rewrite Unsigned.of_to.
Qed.
Lemma digit_value : forall n, (0 <= n < 10)%Z -> is_digit (digit n) = true /\ (Z.of_nat (nat_of_ascii (digit n)) - 48 = n)%Z.
Proof.
  intros n H. assert (C : (n = 0 \/ n = 1 \/ n = 2 \/ n = 3 \/ n = 4 \/ n = 5 \/ n = 6 \/ n = 7 \/ n = 8 \/ n = 9)%Z) by lia.
  repeat (destruct C as [->|C]; [split; reflexivity|]). subst. split; reflexivity.
Qed.
Lemma scan_padded : forall k n rest v j, (0 <= n)%Z ->
  scan (padded k n ++ rest)%string v true j = scan rest (v * 10 ^ Z.of_nat k + n mod 10 ^ Z.of_nat k)%Z true (j + k).
Proof.
  induction k as [|k IH]; intros n rest v j N.
  - cbn [padded append]. change (Z.of_nat 0) with 0%Z. rewrite Z.pow_0_r, Z.mod_1_r. f_equal; lia.
  - cbn [padded]. rewrite append_assoc, IH by (apply Z.div_pos; lia). cbn [append scan].
    destruct (digit_value (n mod 10)) as [D V]; [apply Z.mod_pos_bound; lia|].
    rewrite (digit_not _ "." D eq_refl), D, V. f_equal; [|lia].
    rewrite Nat2Z.inj_succ, Z.pow_succ_r by lia. set (p := (10 ^ Z.of_nat k)%Z). assert (P : (0 < p)%Z) by (apply Z.pow_pos_nonneg; lia).
    rewrite (Z.rem_mul_r n 10 p) by lia. ring.
Qed.
Lemma padded_digits : forall k n, every is_digit (padded k n) = true.
Proof.
  induction k as [|k IH]; intros n; [reflexivity|]. cbn [padded]. rewrite every_append, IH. cbn [every andb].
  destruct (digit_value (n mod 10)) as [D V]; [apply Z.mod_pos_bound; lia|]. now rewrite D.
Qed.
Lemma scan_fixed : forall k z, (0 <= z)%Z ->
  scan (show_nat (Z.to_nat (z / 10 ^ Z.of_nat k)) ++ "." ++ padded k (z mod 10 ^ Z.of_nat k))%string 0 false 0 = Some (z, k).
Proof.
  intros k z Z. set (p := (10 ^ Z.of_nat k)%Z). assert (P : (0 < p)%Z) by (apply Z.pow_pos_nonneg; lia).
  rewrite scan_nat. cbn [append scan Ascii.eqb Bool.eqb]. rewrite <- (append_nil (padded k (z mod p))), scan_padded by (apply Z.mod_pos_bound; lia).
  cbn [scan]. fold p. rewrite Z2Nat.id by (apply Z.div_pos; lia). rewrite Z.mod_mod by lia. f_equal. f_equal.
  pose proof (Z.div_mod z p ltac:(lia)). lia.
Qed.
Lemma read_fixed : forall k z, read_decimal (fixed k z) = Some (IZR z / 10 ^ k)%R.
Proof.
  intros k z. unfold fixed. destruct (Z.ltb_spec z 0) as [N|N].
  - cbn [append]. cbn [read_decimal]. rewrite scan_fixed by lia. f_equal. rewrite Z.abs_neq by lia. rewrite opp_IZR. unfold Rdiv. ring.
  - cbn [append]. pose proof (scan_fixed k (Z.abs z) ltac:(lia)) as S.
    destruct (show_nat_first (Z.to_nat (Z.abs z / 10 ^ Z.of_nat k))) as (a & r & E & D). rewrite E in *. cbn [append] in *.
    unfold read_decimal. rewrite S. rewrite Z.abs_eq by lia.
    destruct a as [[] [] [] [] [] [] [] []]; try reflexivity; discriminate.
Qed.
Lemma fixed_no_space : forall k z, every (fun a => negb (Ascii.eqb a " ")) (fixed k z) = true.
Proof.
  intros. unfold fixed. rewrite !every_append. rewrite (digits_without " " _ eq_refl (show_nat_digits _)), (digits_without " " _ eq_refl (padded_digits _ _)).
  now destruct (z <? 0)%Z.
Qed.

(** Rows. *)
Definition round7 (x : R) : R := (IZR (round_half_even (x * 10 ^ 7)) / 10 ^ 7)%R.
Definition round_pc (p : pc3) : pc3 := PC (round7 (pcx p)) (round7 (pcy p)) (round7 (pcz p)).
Lemma read_pc_row : forall p, read_row (pc_row p) = Some (round_pc p).
Proof.
  intros p. unfold read_row, pc_row. cbn [map join append].
  rewrite !split_append by apply fixed_no_space. rewrite split_none by apply fixed_no_space. cbn [map all_some].
  rewrite !read_fixed. reflexivity.
Qed.
Lemma row_not_comment : forall p, is_comment (pc_row p) = false.
Proof.
  intros p. unfold pc_row. cbn [map join]. unfold fixed at 1. set (z := round_half_even (pcx p * 10 ^ 7)%R).
  destruct (z <? 0)%Z; [reflexivity|]. destruct (show_nat_first (Z.to_nat (Z.abs z / 10 ^ Z.of_nat 7))) as (a & r & E & D). rewrite E. cbn [append].
  destruct a as [[] [] [] [] [] [] [] []]; try reflexivity; discriminate.
Qed.
Lemma round_error : forall x, (Rabs (x - IZR (round_half_even x)) <= / 2)%R.
Proof.
  intros x. unfold round_half_even. destruct (archimed x) as [A B]. rewrite minus_IZR.
  destruct (Rlt_dec (x - (IZR (up x) - 1)) (/ 2)) as [L|L].
  - rewrite minus_IZR. apply Rabs_le. lra.
  - destruct (Rlt_dec (/ 2) (x - (IZR (up x) - 1))) as [G|G].
    + rewrite plus_IZR, minus_IZR. apply Rabs_le. lra.
    + destruct (Z.even (up x - 1)); [rewrite minus_IZR|rewrite plus_IZR, minus_IZR]; apply Rabs_le; lra.
Qed.
Lemma round_IZR : forall z, round_half_even (IZR z) = z.
Proof.
  intros z. unfold round_half_even. assert (U : up (IZR z) = (z + 1)%Z) by (symmetry; apply tech_up; rewrite plus_IZR; lra).
  rewrite U. replace (z + 1 - 1)%Z with z by lia. destruct (Rlt_dec (IZR z - IZR z) (/ 2)) as [L|L]; [reflexivity|lra].
Qed.
Lemma round7_error : forall x, (Rabs (x - round7 x) <= 5 / 10 ^ 8)%R.
Proof.
  intros x. unfold round7. pose proof (round_error (x * 10 ^ 7)) as E. set (r := IZR (round_half_even (x * 10 ^ 7))) in *.
  pose proof (Rle_abs (x * 10 ^ 7 - r)) as E1. pose proof (Rle_abs (- (x * 10 ^ 7 - r))) as E2. rewrite Rabs_Ropp in E2. apply Rabs_le. assert (T : (x - r / 10 ^ 7 = (x * 10 ^ 7 - r) / 10 ^ 7)%R) by (field; lra). rewrite T. split; lra.
Qed.
Lemma round7_again : forall x, round7 (round7 x) = round7 x.
Proof.
  intros x. unfold round7. set (z := round_half_even (x * 10 ^ 7)). replace (IZR z / 10 ^ 7 * 10 ^ 7)%R with (IZR z) by (field; lra). now rewrite round_IZR.
Qed.

(** The " deg" suffix. *)
Definition clean (s : string) : Prop := exists a, last_char s = Some a /\ in_deg a = false.
Lemma rstrip_all : forall t, every in_deg t = true -> rstrip_deg t = ""%string.
Proof. induction t as [|a t IH]; intros H; cbn in *; [reflexivity|]. apply andb_true_iff in H as [A B]. now rewrite IH, A. Qed.
Lemma rstrip_clean : forall s t, clean s -> every in_deg t = true -> rstrip_deg (s ++ t)%string = s.
Proof.
  induction s as [|a s IH]; intros t (b & L & D) T; [discriminate|]. destruct s as [|c s].
  - cbn in L. injection L as ->. cbn [append rstrip_deg]. rewrite (rstrip_all t T). now rewrite D.
  - cbn [append rstrip_deg] in *. assert (C : clean (String c s)) by (exists b; split; [exact L|exact D]). specialize (IH t C T). cbn [append rstrip_deg] in IH.
    rewrite IH. reflexivity.
Qed.
Lemma rstrip_clean_nil : forall s, clean s -> rstrip_deg s = s.
Proof. intros s C. rewrite <- (append_nil s) at 1. now apply rstrip_clean. Qed.
