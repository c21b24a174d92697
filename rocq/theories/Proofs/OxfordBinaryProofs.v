From Coq Require Import String List Arith ZArith QArith Qround Bool Lia Lqa Permutation.
From Verif Require Import Model.Binary Model.OxfordBinary Spec.BinaryFiles Proofs.ListLemmas Proofs.BinaryProofs Proofs.EdaxBinaryProofs.
Import ListNotations.
Local Open Scope nat_scope.

(** ** Lists *)

Lemma place_some l : forall i j, place l i = Some j -> nth_error l j = Some i.
Proof.
  induction l as [|a l IH]; intros i j; cbn; [discriminate|]. destruct (Nat.eqb_spec a i) as [->|H].
  - intros E. injection E as <-. reflexivity.
  - destruct (place l i) as [k|] eqn:P; [|discriminate]. intros E. injection E as <-. apply IH. exact P.
Qed.
Lemma place_none l : forall i, place l i = None <-> ~ In i l.
Proof.
  induction l as [|a l IH]; intros i; cbn; [tauto|]. destruct (Nat.eqb_spec a i) as [->|H].
  - split; [discriminate|tauto].
  - specialize (IH i). destruct (place l i) as [k|]; cbn.
    + split; [discriminate|]. intros N. assert (X : ~ In i l) by tauto. apply IH in X. discriminate.
    + split; [|reflexivity]. intros _ [E|E]; [congruence|]. apply (proj1 IH); auto.
Qed.
Lemma place_nth l : NoDup l -> forall i j, nth_error l j = Some i -> place l i = Some j.
Proof.
  intros ND i j N. destruct (place l i) as [k|] eqn:P.
  - apply place_some in P. f_equal. apply (proj1 (NoDup_nth_error l) ND); [apply nth_error_Some; congruence|congruence].
  - exfalso. apply place_none in P. apply P. eapply nth_error_In. exact N.
Qed.

Lemma all_some_map {A B} (g : A -> option B) (h : A -> B) l : (forall a, In a l -> g a = Some (h a)) -> all_some (map g l) = Some (map h l).
Proof.
  induction l as [|a l IH]; intros H; cbn; [reflexivity|]. rewrite H by (left; reflexivity). cbn.
  rewrite IH by (intros; apply H; right; assumption). reflexivity.
Qed.
Lemma keep_map {A} (g : nat -> A) (h : nat -> bool) l : keep (map g l) (map h l) = map g (filter h l).
Proof. induction l as [|a l IH]; cbn; [reflexivity|]. destruct (h a); cbn; congruence. Qed.
Lemma filter_map_length {A B} (g : A -> B) (h : B -> bool) l : length (filter h (map g l)) = length (filter (fun a => h (g a)) l).
Proof. induction l as [|a l IH]; cbn; [reflexivity|]. destruct (h (g a)); cbn; congruence. Qed.

Lemma filter_id {A} (h : A -> bool) l : (forall a, In a l -> h a = true) -> filter h l = l.
Proof.
  induction l as [|a l IH]; intros H; [reflexivity|]. cbn [filter]. rewrite H by (left; reflexivity). f_equal. apply IH. intros; apply H; right; assumption.
Qed.

Lemma int64s_flat (g : nat -> Z) l t : (forall i, In i l -> (- 2 ^ 63 <= g i < 2 ^ 63)%Z) ->
  int64s (length l) (flat_map (fun i => to_le 8 (g i)) l ++ t) = map g l.
Proof.
  induction l as [|i l IH]; intros H; [reflexivity|]. cbn [length int64s flat_map map]. rewrite <- app_assoc.
  rewrite firstn_prefix, skipn_prefix by apply to_le_length. rewrite IH by (intros; apply H; right; assumption). f_equal.
  apply sle_to_le_small; [lia|]. specialize (H i (or_introl eq_refl)). cbn. lia.
Qed.
Lemma flat_8_length (g : nat -> Z) l : length (flat_map (fun i => to_le 8 (g i)) l) = length l * 8.
Proof. induction l as [|i l IH]; cbn [flat_map length]; [reflexivity|]. rewrite app_length, to_le_length, IH. lia. Qed.

Section File.
Variable e : ebsp.
Hypothesis VALID : ebsp_valid e.
Notation v := (e_version e). Notation n := (e_n e). Notation f := (ebsp_file e). Notation R := (ebsp_record_size e).
Notation first := (ebsp_first e). Notation stored := (e_stored e).

Lemma v_nd : NoDup stored. Proof using VALID. apply VALID. Qed.
Lemma v_lt i : In i stored -> i < n. Proof using VALID. apply VALID. Qed.

Lemma header_length i : length (ebsp_header e i) = header_size v.
Proof using. unfold ebsp_header, header_size. rewrite !app_length, !to_le_length. destruct (v <? 5); rewrite ?app_length, ?to_le_length; cbn [length]; lia. Qed.
Lemma footer_length i : length (ebsp_footer e i) = match v with O => 0 | 1 => 16 | _ => 18 end.
Proof using VALID.
  destruct VALID as [_ [_ [_ [_ [_ [_ [_ [_ [_ [_ [_ [B _]]]]]]]]]]]]. specialize (B i).
  unfold ebsp_footer. destruct v as [|[|k]]; rewrite ?app_length; cbn; rewrite ?app_length; cbn; lia.
Qed.
Lemma pixels_length i : length (ebsp_pixels e i) = e_sy e * e_sx e. Proof using. apply pattern_pixels_length. Qed.
Lemma record_length i : length (ebsp_record e i) = R.
Proof using VALID.
  unfold ebsp_record, ebsp_record_size. rewrite !app_length, header_length, flat_le_length, pixels_length, footer_length. unfold header_size. lia.
Qed.
Lemma records_length l : length (flat_map (ebsp_record e) l) = length l * R.
Proof using VALID. induction l as [|i l IH]; cbn [flat_map length]; [reflexivity|]. rewrite app_length, record_length, IH. lia. Qed.
Lemma records_skip l : forall j, j <= length l -> skipn (j * R) (flat_map (ebsp_record e) l) = flat_map (ebsp_record e) (skipn j l).
Proof using VALID.
  induction l as [|i l IH]; intros j H; [cbn in H; assert (j = 0) by lia; subst; reflexivity|]. destruct j as [|j]; [reflexivity|]. cbn [flat_map skipn length] in *.
  cbn [Nat.mul]. rewrite <- skipn_skipn'. rewrite skipn_prefix by apply record_length. apply IH. lia.
Qed.

Lemma start_length : length (ebsp_start e) = starts_position v.
Proof using VALID.
  destruct VALID as [_ [_ [_ [_ [U _]]]]]. unfold ebsp_start, starts_position. destruct v as [|k]; [reflexivity|].
  cbn [Nat.eqb]. rewrite app_length, to_le_length. destruct (3 <? S k); cbn; lia.
Qed.
Lemma file_length_eq : length f = first + length stored * R.
Proof using VALID. unfold ebsp_file, ebsp_first. rewrite !app_length, flat_8_length, seq_length, records_length. lia. Qed.
Lemma first_eq : first = starts_position v + n * 8.
Proof using VALID. unfold ebsp_first. rewrite start_length. lia. Qed.
Lemma first_pos : 8 <= first.
Proof using VALID. destruct VALID as [N _]. unfold ebsp_first. lia. Qed.

Lemma position_some i j : place stored i = Some j -> ebsp_position e i = Z.of_nat (first + j * R) /\ j < length stored.
Proof using.
  intros P. unfold ebsp_position. rewrite P. split; [reflexivity|]. apply place_some in P. apply nth_error_Some. congruence.
Qed.
Lemma position_range i : (0 <= ebsp_position e i < 2 ^ 63)%Z.
Proof using VALID.
  destruct (place stored i) as [j|] eqn:P.
  - destruct (position_some i j P) as [-> J]. pose proof file_length_eq as L.
    destruct VALID as [_ [_ [_ [_ [_ [_ [_ [_ [_ [[_ B] _]]]]]]]]]]. nia.
  - unfold ebsp_position. rewrite P. lia.
Qed.
Lemma position_present i : negb (ebsp_position e i =? 0)%Z = true <-> In i stored.
Proof using VALID.
  pose proof first_pos. destruct (place stored i) as [j|] eqn:P.
  - destruct (position_some i j P) as [-> J]. split; [intros _; apply place_some in P; eapply nth_error_In; exact P|].
    intros _. apply negb_true_iff, Z.eqb_neq. lia.
  - unfold ebsp_position. rewrite P. apply place_none in P. cbn. split; [discriminate|tauto].
Qed.

Lemma read_version : get_version f = Some v.
Proof using VALID.
  destruct VALID as [N [_ [_ [_ [_ [_ [_ [_ [_ [[B _] _]]]]]]]]]]. unfold get_version, int_at.
  assert (HS : forall x t, length x = 8 -> sub (x ++ t) 0 8 = Some x) by (intros x t LX; apply (sub_at [] x t); auto).
  destruct v as [|k] eqn:EV.
  - unfold ebsp_file, ebsp_start. rewrite EV. destruct n as [|m]; [lia|]. cbn [seq flat_map app].
    rewrite <- app_assoc. rewrite HS by apply to_le_length.
    pose proof (position_range 0). cbn [option_map]. rewrite sle_to_le_small by (cbn; lia).
    destruct (Z.ltb_spec (ebsp_position e 0) 0); [lia|reflexivity].
  - unfold ebsp_file, ebsp_start. rewrite EV. rewrite <- app_assoc.
    rewrite HS by apply to_le_length. cbn [option_map].
    rewrite sle_to_le_small by (cbn; lia). destruct (Z.ltb_spec (- Z.of_nat (S k)) 0); [|lia]. f_equal. lia.
Qed.

Definition starts_bytes : list Z := flat_map (fun i => to_le 8 (ebsp_position e i)) (seq 0 n).
Lemma read_starts : sub f (starts_position v) (n * 8) = Some starts_bytes.
Proof using VALID.
  unfold ebsp_file. apply sub_at; [symmetry; apply start_length|]. unfold starts_bytes. rewrite flat_8_length, seq_length. reflexivity.
Qed.
Lemma parse_starts : int64s n starts_bytes = map (ebsp_position e) (seq 0 n).
Proof using VALID.
  unfold starts_bytes. rewrite <- (app_nil_r (flat_map _ _)). rewrite <- (seq_length n 0) at 1. apply int64s_flat.
  intros i _. pose proof (position_range i). lia.
Qed.

(** Parts of the record of the map point stored at position j. *)
Lemma record_split j i : nth_error stored j = Some i ->
  exists a b, f = a ++ ebsp_record e i ++ b /\ length a = first + j * R.
Proof using VALID.
  intros N. apply nth_error_split in N. destruct N as [l1 [l2 [E L]]].
  exists (ebsp_start e ++ starts_bytes ++ flat_map (ebsp_record e) l1), (flat_map (ebsp_record e) l2). split.
  - unfold ebsp_file. fold starts_bytes. rewrite E at 1. rewrite flat_map_app. cbn [flat_map]. rewrite <- !app_assoc. reflexivity.
  - unfold starts_bytes. rewrite !app_length, flat_8_length, seq_length, records_length, L. unfold ebsp_first. lia.
Qed.
Lemma sub_record j i off len x a b : nth_error stored j = Some i -> ebsp_record e i = a ++ x ++ b -> length a = off -> length x = len ->
  sub f (first + j * R + off) len = Some x.
Proof using VALID.
  intros N E LA LX. destruct (record_split j i N) as [p [q [EF LP]]]. rewrite EF, E.
  replace (p ++ (a ++ x ++ b) ++ q) with ((p ++ a) ++ x ++ (b ++ q)) by (rewrite <- !app_assoc; reflexivity).
  apply sub_at; [rewrite app_length; lia|symmetry; exact LX].
Qed.

Definition base : nat := if v <? 5 then first else first + 8.
Lemma header_field pre z post : (- 2 ^ 31 <= z < 2 ^ 31)%Z ->
  to_le 4 0 ++ to_le 4 (Z.of_nat (e_sy e)) ++ to_le 4 (Z.of_nat (e_sx e)) ++ to_le 4 (Z.of_nat (e_sy e * e_sx e * e_item e)) = pre ++ to_le 4 z ++ post ->
  int_at f (base + length pre) 4 = Some z.
Proof using VALID.
  intros Z4 E. destruct VALID as [_ [_ [_ [NE _]]]]. destruct stored as [|i0 rest] eqn:ES; [congruence|].
  assert (N : nth_error stored 0 = Some i0) by (rewrite ES; reflexivity).
  unfold int_at.
  set (ex := if v <? 5 then [] else to_le 4 (e_mx e i0) ++ to_le 4 (e_my e i0)).
  assert (LX : base = first + length ex) by (unfold base, ex; destruct (v <? 5); rewrite ?app_length, ?to_le_length; cbn [length]; lia).
  replace (base + length pre) with (first + 0 * R + length (ex ++ pre)) by (rewrite LX, app_length; lia).
  rewrite (sub_record 0 i0 _ 4 (to_le 4 z) (ex ++ pre) (post ++ flat_map (to_le (e_item e)) (ebsp_pixels e i0) ++ ebsp_footer e i0)).
  - cbn [option_map]. f_equal. apply sle_to_le_small; [lia|cbn; lia].
  - exact N.
  - unfold ebsp_record, ebsp_header. fold ex. rewrite E. rewrite <- !app_assoc. reflexivity.
  - reflexivity.
  - apply to_le_length.
Qed.
Lemma read_compressed : int_at f base 4 = Some 0%Z.
Proof using VALID. rewrite <- (Nat.add_0_r base). change 0 with (@length Z []) at 1; eapply (header_field [] 0%Z); [lia|reflexivity]. Qed.
Lemma read_nrows : int_at f (base + 4) 4 = Some (Z.of_nat (e_sy e)).
Proof using VALID.
  destruct VALID as [_ [_ [_ [_ [_ [_ [_ [_ [[B1 [B2 B3]] _]]]]]]]]]. change 4 with (length (to_le 4 0)) at 1; eapply (header_field (to_le 4 0) (Z.of_nat (e_sy e))); [lia|reflexivity].
Qed.
Lemma read_ncols : int_at f (base + 8) 4 = Some (Z.of_nat (e_sx e)).
Proof using VALID.
  destruct VALID as [_ [_ [_ [_ [_ [_ [_ [_ [[B1 [B2 B3]] _]]]]]]]]].
  change 8 with (length (to_le 4 0 ++ to_le 4 (Z.of_nat (e_sy e)))) at 1; eapply (header_field (to_le 4 0 ++ to_le 4 (Z.of_nat (e_sy e))) (Z.of_nat (e_sx e))); [lia|rewrite <- !app_assoc; reflexivity].
Qed.
Lemma read_nbytes : int_at f (base + 12) 4 = Some (Z.of_nat (e_sy e * e_sx e * e_item e)).
Proof using VALID.
  destruct VALID as [_ [_ [_ [_ [_ [_ [_ [_ [[B1 [B2 B3]] _]]]]]]]]].
  change 12 with (length (to_le 4 0 ++ to_le 4 (Z.of_nat (e_sy e)) ++ to_le 4 (Z.of_nat (e_sx e)))) at 1;
  apply (header_field (to_le 4 0 ++ to_le 4 (Z.of_nat (e_sy e)) ++ to_le 4 (Z.of_nat (e_sx e))) (Z.of_nat (e_sy e * e_sx e * e_item e)) []); [lia|rewrite <- !app_assoc, app_nil_r; reflexivity].
Qed.

Definition the_footer : footer := match v with O => Footer false false 0 0 | 1 => Footer true true 16 16 | _ => Footer true true 18 18 end.
Lemma read_footer : get_footer v f (first + header_size v + e_sy e * e_sx e * e_item e) = Some the_footer.
Proof using VALID.
  destruct VALID as [_ [_ [_ [NE [_ [_ [_ [_ [_ [_ [_ [B _]]]]]]]]]]]]. unfold get_footer, the_footer.
  destruct v as [|[|k]] eqn:EV; [reflexivity|reflexivity|]. cbn [Nat.eqb Nat.ltb Nat.leb]. rewrite <- EV.
  destruct stored as [|i0 rest] eqn:ES; [congruence|].
  assert (N : nth_error stored 0 = Some i0) by (rewrite ES; reflexivity). destruct (B i0) as [BX BY].
  assert (RE : ebsp_record e i0 = (ebsp_header e i0 ++ flat_map (to_le (e_item e)) (ebsp_pixels e i0)) ++ [1%Z] ++ (e_bx e i0 ++ [1%Z] ++ e_by e i0)).
  { unfold ebsp_record, ebsp_footer. rewrite EV. rewrite <- !app_assoc. reflexivity. }
  assert (LH : length (ebsp_header e i0 ++ flat_map (to_le (e_item e)) (ebsp_pixels e i0)) = header_size v + e_sy e * e_sx e * e_item e).
  { rewrite app_length, header_length, flat_le_length, pixels_length. reflexivity. }
  unfold uint_at.
  replace (first + header_size v + e_sy e * e_sx e * e_item e) with (first + 0 * R + (header_size v + e_sy e * e_sx e * e_item e)) by lia.
  rewrite (sub_record 0 i0 _ 1 [1%Z] _ _ N RE LH eq_refl). cbn [option_map bind le Z.add Z.eqb negb Z.mul].
  replace (first + 0 * R + (header_size v + e_sy e * e_sx e * e_item e) + 9) with (first + 0 * R + (header_size v + e_sy e * e_sx e * e_item e + 9)) by lia.
  rewrite (sub_record 0 i0 _ 1 [1%Z] ((ebsp_header e i0 ++ flat_map (to_le (e_item e)) (ebsp_pixels e i0)) ++ [1%Z] ++ e_bx e i0) (e_by e i0) N); try reflexivity.
  - rewrite RE. rewrite <- !app_assoc. reflexivity.
  - rewrite app_length, LH, app_length, BX. reflexivity.
Qed.

Definition item_of : nat := if e_sy e * e_sx e * e_item e =? e_sy e * e_sx e then 1 else 2.
Lemma item_ok : item_of = e_item e.
Proof using VALID.
  destruct VALID as [_ [_ [_ [_ [_ [Y [X [I _]]]]]]]]. unfold item_of.
  destruct (Nat.eqb_spec (e_sy e * e_sx e * e_item e) (e_sy e * e_sx e)) as [E|E]; destruct I as [I|I]; rewrite I in *; try reflexivity; nia.
Qed.

(** Records of the memory map. *)
Lemma rec_size_eq : header_size v + e_sy e * e_sx e * item_of + dtype_size the_footer = R.
Proof using VALID.
  rewrite item_ok. unfold ebsp_record_size, the_footer, header_size. destruct v as [|[|k]]; reflexivity.
Qed.
Lemma stored_size_eq : (e_sy e * e_sx e * e_item e + (header_size v + stored_size the_footer)) = R.
Proof using. unfold ebsp_record_size, the_footer, header_size. destruct v as [|[|k]]; cbn [stored_size Nat.ltb Nat.leb]; lia. Qed.
Lemma read_records : sub f first (length stored * R) = Some (flat_map (ebsp_record e) stored).
Proof using VALID.
  unfold ebsp_file. fold starts_bytes. rewrite app_assoc.
  replace (flat_map (ebsp_record e) stored) with (flat_map (ebsp_record e) stored ++ []) at 1 by apply app_nil_r. apply sub_at; [|symmetry; apply records_length].
  unfold starts_bytes. rewrite app_length, flat_8_length, seq_length. unfold ebsp_first. lia.
Qed.
Lemma field_map {T} (get : list Z -> T) (g : nat -> T) :
  (forall i t, get (ebsp_record e i ++ t) = g i) ->
  map (fun j => get (skipn (j * R) (flat_map (ebsp_record e) stored))) (seq 0 (length stored)) = map g stored.
Proof using VALID.
  intros H. assert (G : forall l1 l2, stored = l1 ++ l2 -> map (fun j => get (skipn (j * R) (flat_map (ebsp_record e) stored))) (seq (length l1) (length l2)) = map g l2).
  { intros l1 l2. revert l1. induction l2 as [|i l2 IH]; intros l1 E; [reflexivity|]. cbn [length seq map]. f_equal.
    - rewrite records_skip by (rewrite E, app_length; lia). rewrite E, skipn_prefix by reflexivity. cbn [flat_map]. apply H.
    - specialize (IH (l1 ++ [i])). rewrite app_length, Nat.add_1_r in IH. apply IH. rewrite <- app_assoc. exact E. }
  apply (G [] stored eq_refl).
Qed.
Lemma data_eq : map (fun j => items item_of (e_sy e * e_sx e) (skipn (header_size v) (skipn (j * R) (flat_map (ebsp_record e) stored)))) (seq 0 (length stored))
  = map (ebsp_pixels e) stored.
Proof using VALID.
  apply (field_map (fun r => items item_of (e_sy e * e_sx e) (skipn (header_size v) r))). intros i t. rewrite item_ok.
  unfold ebsp_record. rewrite <- !app_assoc. rewrite skipn_prefix by apply header_length.
  rewrite <- (pixels_length i). apply items_flat. unfold ebsp_pixels.
  destruct VALID as [_ [_ [_ [_ [_ [_ [_ [_ [_ [_ [F _]]]]]]]]]]].
  apply Forall_forall. intros z I. unfold pattern_pixels in I. apply in_flat_map in I. destruct I as [y [_ I]]. apply in_map_iff in I. destruct I as [x [<- _]]. apply F.
Qed.
Lemma footer_part off len (part : nat -> list Z) i t : (exists a b, ebsp_footer e i = a ++ part i ++ b /\ length a = off /\ length (part i) = len) ->
  firstn len (skipn (header_size v + e_sy e * e_sx e * item_of + off) (ebsp_record e i ++ t)) = part i.
Proof using VALID.
  intros [a [b [E [LA LP]]]]. rewrite item_ok. unfold ebsp_record. rewrite E.
  replace ((ebsp_header e i ++ flat_map (to_le (e_item e)) (ebsp_pixels e i) ++ a ++ part i ++ b) ++ t)
    with ((ebsp_header e i ++ flat_map (to_le (e_item e)) (ebsp_pixels e i) ++ a) ++ part i ++ (b ++ t)) by (rewrite <- !app_assoc; reflexivity).
  rewrite skipn_prefix by (rewrite !app_length, header_length, flat_le_length, pixels_length; lia).
  apply firstn_prefix. exact LP.
Qed.
Lemma footer_x i : 1 <= v -> exists a b, ebsp_footer e i = a ++ e_bx e i ++ b /\ length a = x_offset v /\ length (e_bx e i) = 8.
Proof using VALID.
  destruct VALID as [_ [_ [_ [_ [_ [_ [_ [_ [_ [_ [_ [B _]]]]]]]]]]]]. destruct (B i) as [BX BY]. intros H. unfold ebsp_footer, x_offset, flag_size.
  destruct v as [|[|k]]; [lia|exists [], (e_by e i)|exists [1%Z], ([1%Z] ++ e_by e i)]; auto.
Qed.
Lemma footer_y i : 1 <= v -> exists a b, ebsp_footer e i = a ++ e_by e i ++ b /\ length a = y_offset v the_footer /\ length (e_by e i) = 8.
Proof using VALID.
  destruct VALID as [_ [_ [_ [_ [_ [_ [_ [_ [_ [_ [_ [B _]]]]]]]]]]]]. destruct (B i) as [BX BY]. intros H. unfold ebsp_footer, y_offset, flag_size, the_footer.
  destruct v as [|[|k]]; [lia|exists (e_bx e i), []|exists ([1%Z] ++ e_bx e i ++ [1%Z]), []]; rewrite ?app_nil_r.
  - auto.
  - split; [rewrite <- !app_assoc; reflexivity|]. split; [|exact BY]. rewrite !app_length, BX. reflexivity.
Qed.

(** Coordinates found through the position of a pattern. *)
Lemma coordinate_at off (part : nat -> list Z) i : In i stored ->
  (exists a b, ebsp_footer e i = a ++ part i ++ b /\ length a = off /\ length (part i) = 8) ->
  sub f (Z.to_nat (ebsp_position e i) + header_size v + e_sy e * e_sx e * e_item e + off) 8 = Some (part i).
Proof using VALID.
  intros I [a [b [E [LA LP]]]]. destruct (place stored i) as [j|] eqn:P; [|apply place_none in P; contradiction].
  destruct (position_some i j P) as [-> J]. apply place_some in P. rewrite Nat2Z.id.
  replace (first + j * R + header_size v + e_sy e * e_sx e * e_item e + off) with (first + j * R + (header_size v + e_sy e * e_sx e * e_item e + off)) by lia.
  apply (sub_record j i _ 8 (part i) (ebsp_header e i ++ flat_map (to_le (e_item e)) (ebsp_pixels e i) ++ a) b P).
  - unfold ebsp_record. rewrite E, <- !app_assoc. reflexivity.
  - rewrite !app_length, header_length, flat_le_length, pixels_length. lia.
  - exact LP.
Qed.

(** ** Order of patterns *)

Definition index (i : nat) : nat := match place stored i with Some j => j | None => 0 end.
Lemma index_spec i : In i stored -> nth_error stored (index i) = Some i.
Proof using.
  intros I. unfold index. destruct (place stored i) as [j|] eqn:P; [apply place_some; exact P|]. apply place_none in P. contradiction.
Qed.
Lemma order_at i : In i stored -> Z.quot (ebsp_position e i - Z.of_nat first) (Z.of_nat R) = Z.of_nat (index i).
Proof using VALID.
  intros I. unfold index. destruct (place stored i) as [j|] eqn:P; [|apply place_none in P; contradiction].
  destruct (position_some i j P) as [-> _]. rewrite Nat2Z.inj_add, Nat2Z.inj_mul, Z.add_simpl_l.
  apply Z.quot_mul. assert (8 < R); [|lia]. unfold ebsp_record_size. destruct (v <? 5); lia.
Qed.
Definition present_ids : list nat := filter (fun i => negb (ebsp_position e i =? 0)%Z) (seq 0 n).
Lemma present_in i : In i present_ids <-> In i stored.
Proof using VALID.
  unfold present_ids. rewrite filter_In, position_present. split; [tauto|]. intros I. split; [apply in_seq; pose proof (v_lt i I); lia|exact I].
Qed.
Lemma present_perm : Permutation present_ids stored.
Proof using VALID.
  apply NoDup_Permutation; [apply NoDup_filter, seq_NoDup|apply v_nd|apply present_in].
Qed.
Lemma n_present_eq : length (filter (fun b => b) (map (fun s => negb (s =? 0)%Z) (map (ebsp_position e) (seq 0 n)))) = length stored.
Proof using VALID. rewrite map_map, filter_map_length. rewrite <- (Permutation_length present_perm). reflexivity. Qed.
Lemma all_eq : forallb (fun b => b) (map (fun s => negb (s =? 0)%Z) (map (ebsp_position e) (seq 0 n))) = (length stored =? n).
Proof using VALID.
  rewrite map_map. destruct (Nat.eqb_spec (length stored) n) as [E|E].
  - apply forallb_forall. intros b I. apply in_map_iff in I. destruct I as [i [<- I]]. apply position_present.
    assert (INC : incl stored (seq 0 n)) by (intros j J; apply in_seq; pose proof (v_lt j J); lia).
    apply (NoDup_length_incl v_nd (l' := seq 0 n)); [rewrite seq_length; lia|exact INC|exact I].
  - destruct (forallb _ _) eqn:F; [|reflexivity]. exfalso. apply E. rewrite <- (Permutation_length present_perm).
    unfold present_ids. rewrite forallb_forall in F. rewrite <- (seq_length n 0) at 2. f_equal.
    assert (G : forall l, (forall i, In i l -> In i (seq 0 n)) -> filter (fun i => negb (ebsp_position e i =? 0)%Z) l = l).
    { induction l as [|i l IH]; intros H; [reflexivity|]. cbn [filter].
      rewrite (F (negb (ebsp_position e i =? 0)%Z)) by (apply in_map_iff; exists i; split; [reflexivity|apply H; left; reflexivity]).
      f_equal. apply IH. intros; apply H; right; assumption. }
    apply G. auto.
Qed.
Lemma all_in : length stored = n -> forall i, In i (seq 0 n) -> In i stored.
Proof using VALID.
  intros E i I. assert (INC : incl stored (seq 0 n)) by (intros j J; apply in_seq; pose proof (v_lt j J); lia).
  apply (NoDup_length_incl v_nd (l' := seq 0 n)); [rewrite seq_length; lia|exact INC|exact I].
Qed.

Lemma diff_seq (g : nat -> Z) : forall m a, forallb (fun d => (d =? 1)%Z) (diff (map g (seq a m))) = true ->
  forall k, k < m -> g (a + k) = (g a + Z.of_nat k)%Z.
Proof using.
  induction m as [|m IH]; intros a H k K; [lia|]. destruct k as [|k]; [rewrite Nat.add_0_r; lia|].
  destruct m as [|m]; [lia|]. cbn [seq map diff forallb] in H. apply andb_true_iff in H. destruct H as [H1 H2]. apply Z.eqb_eq in H1.
  specialize (IH (S a) H2 k ltac:(lia)). replace (a + S k) with (S a + k) by lia. rewrite IH. lia.
Qed.
Lemma sorted_identity : length stored = n ->
  forallb (fun d => (d =? 1)%Z) (diff (map (fun i => Z.of_nat (index i)) (seq 0 n))) = true -> stored = seq 0 n.
Proof using VALID.
  intros E H. pose proof (diff_seq (fun i => Z.of_nat (index i)) n 0 H) as D. cbn beta in D.
  assert (B : forall k, k < n -> index k < n).
  { intros k K. rewrite <- E. apply nth_error_Some. rewrite (index_spec k) by (apply (all_in E), in_seq; lia). discriminate. }
  destruct (Nat.eq_dec n 0) as [Z0|NZ]; [rewrite Z0 in *; destruct stored; [reflexivity|discriminate]|].
  pose proof (D (n - 1) ltac:(lia)) as DL. pose proof (B (n - 1) ltac:(lia)). cbn [Nat.add] in DL.
  assert (I0 : index 0 = 0) by lia.
  apply (nth_ext _ _ 0 0); [rewrite seq_length; exact E|]. intros k K. rewrite seq_nth by lia. cbn [Nat.add].
  apply nth_error_nth. rewrite E in K. specialize (D k K). cbn [Nat.add] in D. assert (IK : index k = k) by lia.
  rewrite <- IK at 1. apply index_spec. apply (all_in E), in_seq. lia.
Qed.

(** Taking the record at the index of each of some map points. *)
Lemma take_index {T} (g : nat -> T) l : (forall i, In i l -> In i stored) ->
  take (map g stored) (map (fun i => Z.of_nat (index i)) l) = Some (map g l).
Proof using.
  intros H. unfold take. rewrite map_map. apply all_some_map. intros i I.
  destruct (Z.ltb_spec (Z.of_nat (index i)) 0); [lia|]. rewrite Nat2Z.id, nth_error_map, index_spec by (apply H; exact I). reflexivity.
Qed.

Lemma quot_order : map (fun s => Z.quot (s - Z.of_nat first) (Z.of_nat R)) (map (ebsp_position e) (seq 0 n)) =
  map (fun i => Z.quot (ebsp_position e i - Z.of_nat first) (Z.of_nat R)) (seq 0 n).
Proof using. apply map_map. Qed.
Lemma present_order_eq : keep (map (fun s => Z.quot (s - Z.of_nat first) (Z.of_nat R)) (map (ebsp_position e) (seq 0 n))) (map (fun s => negb (s =? 0)%Z) (map (ebsp_position e) (seq 0 n)))
  = map (fun i => Z.of_nat (index i)) present_ids.
Proof using VALID.
  rewrite quot_order, map_map. rewrite (keep_map (fun i => Z.quot (ebsp_position e i - Z.of_nat first) (Z.of_nat R))). fold present_ids.
  apply map_ext_in. intros i I. apply order_at. apply present_in. exact I.
Qed.
Lemma keep_seq : keep (seq 0 n) (map (fun s => negb (s =? 0)%Z) (map (ebsp_position e) (seq 0 n))) = present_ids.
Proof using.
  rewrite map_map. rewrite <- (map_id (seq 0 n)) at 1. rewrite (keep_map (fun i => i)). apply map_id.
Qed.
Lemma present_all : length stored = n -> present_ids = seq 0 n.
Proof using VALID.
  intros E. unfold present_ids. apply filter_id. intros i I. apply position_present. apply all_in; assumption.
Qed.

(** Patterns in the order in which they are returned. *)
Definition returned : list nat := if length stored =? n then seq 0 n else stored.
Lemma data_taken : (let order := map (fun s => Z.quot (s - Z.of_nat first) (Z.of_nat R)) (map (ebsp_position e) (seq 0 n)) in
  if negb (forallb (fun d => (d =? 1)%Z) (diff order)) && (length stored =? n) then take (map (ebsp_pixels e) stored) order else Some (map (ebsp_pixels e) stored))
  = Some (map (ebsp_pixels e) returned).
Proof using VALID.
  cbv zeta. rewrite quot_order. unfold returned. destruct (Nat.eqb_spec (length stored) n) as [E|E]; [|rewrite andb_false_r; reflexivity].
  assert (O : map (fun i => Z.quot (ebsp_position e i - Z.of_nat first) (Z.of_nat R)) (seq 0 n) = map (fun i => Z.of_nat (index i)) (seq 0 n)).
  { apply map_ext_in. intros i I. apply order_at, all_in; assumption. }
  rewrite O. destruct (forallb _ (diff _)) eqn:D; cbn [negb andb].
  - f_equal. f_equal. apply sorted_identity; assumption.
  - apply take_index. intros i I. apply all_in; assumption.
Qed.
Lemma returned_length : length returned = length stored.
Proof using. unfold returned. destruct (Nat.eqb_spec (length stored) n) as [E|E]; [rewrite seq_length; congruence|reflexivity]. Qed.

Lemma beam_x_taken : 1 <= v ->
  map (fun j => firstn 8 (skipn (header_size v + e_sy e * e_sx e * item_of + x_offset v) (skipn (j * R) (flat_map (ebsp_record e) stored)))) (seq 0 (length stored)) = map (e_bx e) stored.
Proof using VALID.
  intros H. apply (field_map (fun r => firstn 8 (skipn (header_size v + e_sy e * e_sx e * item_of + x_offset v) r))).
  intros i t. apply footer_part. apply footer_x. exact H.
Qed.
Lemma beam_y_taken : 1 <= v ->
  map (fun j => firstn 8 (skipn (header_size v + e_sy e * e_sx e * item_of + y_offset v the_footer) (skipn (j * R) (flat_map (ebsp_record e) stored)))) (seq 0 (length stored)) = map (e_by e) stored.
Proof using VALID.
  intros H. apply (field_map (fun r => firstn 8 (skipn (header_size v + e_sy e * e_sx e * item_of + y_offset v the_footer) r))).
  intros i t. apply footer_part. apply footer_y. exact H.
Qed.
Lemma map_x_taken : (v <? 5) = false ->
  map (fun j => sle (firstn 4 (skipn 0 (skipn (j * R) (flat_map (ebsp_record e) stored))))) (seq 0 (length stored)) = map (e_mx e) stored.
Proof using VALID.
  intros H. apply (field_map (fun r => sle (firstn 4 (skipn 0 r)))). intros i t. unfold ebsp_record, ebsp_header. rewrite H. cbn [skipn].
  rewrite <- !app_assoc. rewrite firstn_prefix by apply to_le_length. apply sle_to_le_small; [lia|].
  destruct VALID as [_ [_ [_ [_ [_ [_ [_ [_ [_ [_ [_ [_ M]]]]]]]]]]]]. specialize (M i). cbn. lia.
Qed.
Lemma map_y_taken : (v <? 5) = false ->
  map (fun j => sle (firstn 4 (skipn 4 (skipn (j * R) (flat_map (ebsp_record e) stored))))) (seq 0 (length stored)) = map (e_my e) stored.
Proof using VALID.
  intros H. apply (field_map (fun r => sle (firstn 4 (skipn 4 r)))). intros i t. unfold ebsp_record, ebsp_header. rewrite H.
  rewrite <- !app_assoc. rewrite skipn_prefix by apply to_le_length. rewrite firstn_prefix by apply to_le_length. apply sle_to_le_small; [lia|].
  destruct VALID as [_ [_ [_ [_ [_ [_ [_ [_ [_ [_ [_ [_ M]]]]]]]]]]]]. specialize (M i). cbn. lia.
Qed.

(** What is read when the number of patterns is right. *)
Definition nav (decode : list Z -> Q) : option (list nat * list Q * list string) :=
  if negb (length stored =? n) || (v =? 0) then Some ([length stored], [inject_Z 1], ["x"; "dy"; "dx"]%string)
  else if n =? 1 then None
  else option_map (fun t : nat * nat * Q => let '(rows, cols, step) := t in ([rows; cols], [step; step], ["y"; "x"; "dy"; "dx"]%string))
    (nav_shape_from decode (e_bx e 0) (e_bx e 1) (e_bx e (n - 1)) (e_by e 0) (e_by e (n - 1))).
Lemma read_eq (decode : list Z -> Q) : guess_number_of_patterns v f = Some n ->
  read_scan decode f =
    (let? t := nav decode in let '(shape, steps, names) := t in
     if negb (length stored =? size_of shape) then None else
     Some (Scan (map (ebsp_pixels e) returned) shape (e_sy e, e_sx e) names (steps ++ [inject_Z 1; inject_Z 1])
       present_ids (map (fun i => Z.of_nat (index i)) present_ids)
       (if v =? 0 then None else Some (map (e_bx e) present_ids)) (if v =? 0 then None else Some (map (e_by e) present_ids))
       (if v <? 5 then None else Some (map (e_mx e) present_ids)) (if v <? 5 then None else Some (map (e_my e) present_ids)))).
Proof using VALID.
  intros G. unfold read_scan. rewrite read_version. cbn [bind]. rewrite G. cbn [bind]. rewrite read_starts. cbn [bind]. rewrite parse_starts.
  rewrite <- first_eq. fold base. rewrite read_compressed. cbn [bind Z.eqb negb]. rewrite read_nrows, read_ncols, read_nbytes. cbn [bind].
  rewrite !Nat2Z.id. fold item_of. rewrite read_footer. cbn [bind]. rewrite n_present_eq, all_eq.
  assert (NAV : (if negb (length stored =? n) || negb (has_x the_footer || has_y the_footer) then Some ([length stored], [inject_Z 1], ["x"; "dy"; "dx"]%string)
    else if negb (has_x the_footer && has_y the_footer) then None
    else let? s2 := nth_error (map (ebsp_position e) (seq 0 n)) 1 in
      let? x1 := sub f (Z.to_nat (hd 0%Z (map (ebsp_position e) (seq 0 n))) + header_size v + e_sy e * e_sx e * e_item e + x_offset v) 8 in
      let? x2 := sub f (Z.to_nat s2 + header_size v + e_sy e * e_sx e * e_item e + x_offset v) 8 in
      let? xl := sub f (Z.to_nat (last (map (ebsp_position e) (seq 0 n)) 0%Z) + header_size v + e_sy e * e_sx e * e_item e + x_offset v) 8 in
      let? y1 := sub f (Z.to_nat (hd 0%Z (map (ebsp_position e) (seq 0 n))) + header_size v + e_sy e * e_sx e * e_item e + y_offset v the_footer) 8 in
      let? yl := sub f (Z.to_nat (last (map (ebsp_position e) (seq 0 n)) 0%Z) + header_size v + e_sy e * e_sx e * e_item e + y_offset v the_footer) 8 in
      let? t := nav_shape_from decode x1 x2 xl y1 yl in
      let '(rows, cols, step) := t in Some ([rows; cols], [step; step], ["y"; "x"; "dy"; "dx"]%string)) = nav decode).
  { unfold nav. destruct (Nat.eqb_spec (length stored) n) as [EA|EA]; [|reflexivity]. cbn [negb orb].
    assert (HB : has_x the_footer = negb (v =? 0) /\ has_y the_footer = negb (v =? 0)) by (unfold the_footer; destruct v as [|[|k]]; auto).
    destruct HB as [-> ->]. rewrite orb_diag, andb_diag, !negb_involutive. destruct (Nat.eqb_spec v 0) as [E0|E0]; [reflexivity|].
    destruct (Nat.eqb_spec n 1) as [E1|E1]; [rewrite E1; reflexivity|].
    assert (N1 : 1 <= n) by (destruct VALID; assumption).
    assert (IN : forall i, i < n -> In i stored) by (intros i I; apply all_in; [exact EA|apply in_seq; lia]).
    rewrite nth_error_map, nth_error_seq by lia. cbn [option_map bind Nat.add].
    assert (H0 : hd 0%Z (map (ebsp_position e) (seq 0 n)) = ebsp_position e 0) by (destruct n as [|m]; [lia|reflexivity]).
    assert (HL : last (map (ebsp_position e) (seq 0 n)) 0%Z = ebsp_position e (n - 1)).
    { replace n with (S (n - 1)) at 1 by lia. rewrite seq_S, map_app. cbn [map]. rewrite last_last. reflexivity. }
    rewrite H0, HL.
    pose proof (fun i I => coordinate_at (x_offset v) (e_bx e) i (IN i I) (footer_x i ltac:(lia))) as CX.
    pose proof (fun i I => coordinate_at (y_offset v the_footer) (e_by e) i (IN i I) (footer_y i ltac:(lia))) as CY.
    rewrite !CX, !CY by lia. cbn [bind]. destruct (nav_shape_from _ _ _ _ _ _) as [[[rows cols] step]|]; reflexivity. }
  cbv zeta. etransitivity; [apply (f_equal (fun o => bind o _) NAV)|]. destruct (nav decode) as [[[shape steps] nms]|]; [|reflexivity]. cbn [bind].
  rewrite rec_size_eq. rewrite read_records. cbn [bind]. rewrite data_eq, stored_size_eq. pose proof data_taken as DT. cbv zeta in DT. rewrite DT. cbn [bind].
  rewrite map_length, returned_length. destruct (Nat.eqb_spec (length stored) (size_of shape)) as [ES|ES]; [|reflexivity]. cbn [negb].
  rewrite present_order_eq, keep_seq.
  assert (IN : forall i, In i present_ids -> In i stored) by (intros i I; apply present_in; exact I).
  assert (BX : (if has_x the_footer then option_map Some (take (map (fun j => firstn 8 (skipn (header_size v + e_sy e * e_sx e * item_of + x_offset v) (skipn (j * R) (flat_map (ebsp_record e) stored)))) (seq 0 (length stored))) (map (fun i => Z.of_nat (index i)) present_ids)) else Some None)
    = Some (if v =? 0 then None else Some (map (e_bx e) present_ids))).
  { destruct (Nat.eqb_spec v 0) as [E0|E0]; [unfold the_footer; rewrite E0; reflexivity|].
    rewrite beam_x_taken by lia. rewrite take_index by exact IN. unfold the_footer. destruct v as [|[|k]]; [congruence|reflexivity|reflexivity]. }
  assert (BY : (if has_y the_footer then option_map Some (take (map (fun j => firstn 8 (skipn (header_size v + e_sy e * e_sx e * item_of + y_offset v the_footer) (skipn (j * R) (flat_map (ebsp_record e) stored)))) (seq 0 (length stored))) (map (fun i => Z.of_nat (index i)) present_ids)) else Some None)
    = Some (if v =? 0 then None else Some (map (e_by e) present_ids))).
  { destruct (Nat.eqb_spec v 0) as [E0|E0]; [unfold the_footer; rewrite E0; reflexivity|].
    rewrite beam_y_taken by lia. rewrite take_index by exact IN. unfold the_footer. destruct v as [|[|k]]; [congruence|reflexivity|reflexivity]. }
  rewrite BX, BY. cbn [bind].
  destruct (v <? 5) eqn:E5; [reflexivity|].
  rewrite map_x_taken, map_y_taken by assumption. rewrite !take_index by exact IN. reflexivity.
Qed.
End File.
