From Coq Require Import Ascii String List ZArith Arith QArith Qabs Bool Lia DecimalString DecimalNat.
From Verif Require Import Model.DetectorText Proofs.DetectorTextProofs Model.Binary Model.Nordif Model.NordifSettings Spec.SettingsText.
Import ListNotations.
Local Open Scope string_scope.
Local Open Scope list_scope.
Local Open Scope Z_scope.

(** Texts. *)
Lemma prefix_append : forall p r, prefix p (p ++ r) = true.
Proof. induction p as [|a p IH]; intros r; [destruct r; reflexivity|]. cbn. destruct (ascii_dec a a); [apply IH|contradiction]. Qed.
Lemma drop_append : forall p r, drop (String.length p) (p ++ r)%string = r.
Proof. induction p as [|a p IH]; intros r; [reflexivity|]. apply IH. Qed.
Lemma prefix_split : forall p s, prefix p s = true -> exists r, s = (p ++ r)%string.
Proof.
  induction p as [|a p IH]; intros s H; [now exists s|]. destruct s as [|b s]; [discriminate|]. cbn in H.
  destruct (ascii_dec a b) as [->|]; [|discriminate]. destruct (IH s H) as [r ->]. now exists r.
Qed.
Lemma free_append : forall c a b, free c (a ++ b) <-> free c a /\ free c b.
Proof. induction a as [|x a IH]; intros b; cbn; [tauto|]. rewrite IH. tauto. Qed.
Lemma free_every : forall c s, free c s <-> every (fun a => negb (Ascii.eqb a c)) s = true.
Proof.
  induction s as [|a s IH]; cbn; [tauto|]. rewrite IH, andb_true_iff, negb_true_iff, Ascii.eqb_neq. tauto.
Qed.
Lemma contains_free : forall c p s, free c s -> contains (String c p) s = false.
Proof.
  intros c p. induction s as [|a s IH]; intros F; [reflexivity|]. cbn in F. destruct F as [N F]. cbn.
  destruct (ascii_dec c a) as [->|]; [contradiction|]. cbn. now apply IH.
Qed.
Lemma before_last_free : forall c p s, free c s -> before_last (String c p) s = None.
Proof.
  intros c p. induction s as [|a s IH]; intros F; [reflexivity|]. cbn in F. destruct F as [N F]. cbn. rewrite (IH F).
  destruct (ascii_dec c a) as [->|]; [contradiction|reflexivity].
Qed.
Lemma before_last_value : forall c p v r, free c v -> free c (p ++ r)%string ->
  before_last (String c p) (v ++ String c (p ++ r)) = Some v.
Proof.
  intros c p v r. induction v as [|a v IH]; intros V F.
  - cbn [String.append before_last]. rewrite (before_last_free c p _ F). cbn. destruct (ascii_dec c c); [|contradiction]. now rewrite prefix_append.
  - cbn in V. destruct V as [N V]. cbn [String.append before_last]. now rewrite (IH V F).
Qed.
Lemma search_start : forall pre suf s g, before_last suf s = Some g -> search pre suf (pre ++ s) = Some g.
Proof.
  intros pre suf s g B. destruct (pre ++ s)%string as [|a t] eqn:E; cbn [search]; rewrite <- E, prefix_append, drop_append, B; reflexivity.
Qed.
Lemma search_entry : forall l v p r, free (ascii_of_nat 9) v -> free (ascii_of_nat 9) (p ++ r)%string ->
  search (l ++ tab) (tab ++ p) (entry_text (Entry l v (p ++ r))) = Some v.
Proof.
  intros l v p r V F. unfold entry_text. cbn [label value unit]. rewrite <- append_assoc. apply search_start. exact (before_last_value (ascii_of_nat 9) p v r V F).
Qed.

(** Blocks. *)
Lemma block_line_app : forall n a i f b, block_line i f n (a ++ b) = block_line (i + Z.of_nat (List.length a)) (block_line i f n a) n b.
Proof.
  intros n a. induction a as [|x a IH]; intros i f b; [cbn; now rewrite Z.add_0_r|].
  cbn [List.app block_line List.length]. rewrite IH. f_equal. lia.
Qed.
Lemma block_line_none : forall n a i f, (forall l, In l a -> contains n l = false) -> block_line i f n a = f.
Proof.
  intros n a. induction a as [|x a IH]; intros i f H; [reflexivity|]. cbn. rewrite (H x (or_introl eq_refl)). apply IH. intros l L. apply H. now right.
Qed.
Lemma entry_free : forall e, plain_entry e -> free "[" (entry_text e).
Proof.
  intros e [(_ & L & _) [(_ & V & _) (_ & U & _)]]. unfold entry_text. rewrite !free_append. cbn. repeat split; try assumption; discriminate.
Qed.
Lemma prefix_cons : forall a b p s, prefix (String a p) (String b s) = true -> a = b /\ prefix p s = true.
Proof. intros a b p s H. cbn in H. destruct (ascii_dec a b); [now split|discriminate]. Qed.
Lemma prefix_name : forall a b r, free "]" a -> free "]" b -> prefix (a ++ "]") (b ++ "]" ++ r) = true -> a = b.
Proof.
  induction a as [|x a IH]; intros b r A B H.
  - destruct b as [|y b]; [reflexivity|]. apply prefix_cons in H as [H _]. cbn in B. destruct B; congruence.
  - cbn in A. destruct b as [|y b].
    + apply prefix_cons in H as [H _]. destruct A; congruence.
    + apply prefix_cons in H as [-> H]. cbn in B. f_equal. exact (IH b r (proj2 A) (proj2 B) H).
Qed.
Lemma contains_heading : forall n m, plain n -> plain m -> n <> m -> contains (heading n) (heading m ++ tabulator ++ tabulator) = false.
Proof.
  intros n m (_ & _ & N) (_ & M1 & M) D. unfold heading. cbn [String.append contains].
  replace (prefix (String "[" (n ++ "]")) (String "[" ((m ++ "]") ++ tabulator ++ tabulator))) with (prefix (n ++ "]") (m ++ "]" ++ tabulator ++ tabulator)) by
    (cbn; now rewrite append_assoc).
  destruct (prefix (n ++ "]") (m ++ "]" ++ tabulator ++ tabulator)) eqn:E; [apply prefix_name in E; [contradiction|assumption..]|].
  cbn [orb]. apply contains_free. rewrite !free_append. cbn. repeat split; try assumption; discriminate.
Qed.
Lemma contains_own : forall n r, contains n (n ++ r) = true.
Proof. intros n r. destruct (n ++ r)%string eqn:E; cbn [contains]; rewrite <- E, prefix_append; reflexivity. Qed.
Lemma block_without : forall n b, plain n -> plain_block b -> n <> name b -> forall l, In l (block_text b) -> contains (heading n) l = false.
Proof.
  intros n b N [B E] D l L. unfold block_text in L. apply in_app_or in L as [[<-|L]|[<-|[]]].
  - now apply contains_heading.
  - apply in_map_iff in L as (e & <- & I). rewrite Forall_forall in E. apply contains_free. now apply entry_free, E.
  - apply contains_free. cbn. repeat split; discriminate.
Qed.
Lemma document_without : forall n d, plain n -> Forall plain_block d -> ~ In n (map name d) -> forall l, In l (document d) -> contains (heading n) l = false.
Proof.
  intros n d N P D l L. unfold document in L. apply in_flat_map in L as (b & B & L). rewrite Forall_forall in P. eapply block_without; eauto.
  intros ->. apply D. now apply in_map.
Qed.
Lemma document_app : forall a b, document (a ++ b) = document a ++ document b.
Proof. intros. apply flat_map_app. Qed.
Lemma blocks_at : forall n before es after, plain n -> Forall plain_block (before ++ Block n es :: after) -> ~ In n (map name (before ++ after)) ->
  blocks (document (before ++ Block n es :: after)) (heading n) = Z.of_nat (List.length (document before)).
Proof.
  intros n before es after N P D. unfold blocks. rewrite document_app, block_line_app. apply Forall_app in P as [P1 P2]. inversion P2 as [|x y Pb P3]; subst.
  rewrite map_app, in_app_iff in D.
  rewrite (block_line_none _ (document before)) by (apply document_without; tauto).
  change (document (Block n es :: after)) with (block_text (Block n es) ++ document after).
  rewrite block_line_app. rewrite (block_line_none _ (document after)) by (apply document_without; tauto).
  unfold block_text. cbn [name entries List.app]. change ((?a :: ?b) ++ ?c) with (a :: (b ++ c)).
  cbn [block_line]. rewrite contains_own. rewrite block_line_none; [lia|].
  intros l L. apply in_app_or in L as [L|[<-|[]]].
  - apply in_map_iff in L as (e & <- & I). destruct Pb as [_ E]. rewrite Forall_forall in E. apply contains_free. now apply entry_free, E.
  - apply contains_free. cbn. repeat split; discriminate.
Qed.

Lemma says_line : forall d n labels i l v u, Forall plain_block d -> plain n -> has_block d n labels -> nth_error labels i = Some l -> says d n l v u ->
  get_line (document d) (blocks (document d) (heading n) + Z.of_nat (S i)) = Some (entry_text (Entry l v u)) /\ plain v /\ plain u.
Proof.
  intros d n labels i l v u P N (before & es & rest & after & -> & L & D) I [_ U].
  assert (exists e, nth_error es i = Some e /\ label e = l) as (e & E & El).
  { rewrite <- L in I. rewrite nth_error_map in I. destruct (nth_error es i) as [e|]; [|discriminate]. injection I as I. now exists e. }
  assert (B : In (Block n (es ++ rest)) (before ++ Block n (es ++ rest) :: after)) by (apply in_or_app; right; now left).
  assert (Ie : In e (es ++ rest)) by (apply in_or_app; left; eapply nth_error_In; eassumption).
  pose proof (U _ e B eq_refl Ie El) as ->.
  split.
  - unfold get_line. rewrite blocks_at by assumption. rewrite document_app.
    replace (Z.to_nat (Z.of_nat (List.length (document before)) + Z.of_nat (S i))) with (List.length (document before) + S i)%nat by lia.
    rewrite nth_error_app2 by lia. replace (List.length (document before) + S i - List.length (document before))%nat with (S i) by lia.
    change (document (Block n (es ++ rest) :: after)) with (block_text (Block n (es ++ rest)) ++ document after).
    unfold block_text. cbn [name entries List.app nth_error]. rewrite map_app, <- !app_assoc.
    rewrite nth_error_app1 by (rewrite map_length; apply nth_error_Some; congruence). rewrite nth_error_map, E. reflexivity.
  - rewrite Forall_forall in P. destruct (P _ B) as [_ F]. rewrite Forall_forall in F. destruct (F _ Ie) as (_ & V & W). cbn in V, W. now split.
Qed.
(** The reader gets the value of an entry, with any unit that starts as expected. *)
Lemma says_text : forall d n labels i l v p r, Forall plain_block d -> plain n -> has_block d n labels -> nth_error labels i = Some l -> says d n l v (p ++ r) ->
  get_text (document d) (l ++ tab) (tab ++ p) (blocks (document d) (heading n) + Z.of_nat (S i)) = Some v.
Proof.
  intros d n labels i l v p r P N H I S. destruct (says_line _ _ _ _ _ _ _ P N H I S) as (L & V & U).
  unfold get_text, get_string. rewrite L. cbn [bind option_map]. rewrite search_entry; [reflexivity|apply V|apply U].
Qed.

(** Numbers. *)
Lemma digit_not_space : forall a, is_digit a = true -> is_space a = false.
Proof. intros a H. destruct a as [[] [] [] [] [] [] [] []]; try reflexivity; discriminate. Qed.
Definition solid (a : ascii) : bool := negb (is_space a).
Lemma rstrip_solid : forall s, every solid s = true -> rstrip s = s.
Proof.
  induction s as [|a s IH]; intros H; [reflexivity|]. cbn in H. apply andb_true_iff in H as [A B]. cbn. rewrite (IH B). destruct s; [|reflexivity].
  unfold solid in A. apply negb_true_iff in A. now rewrite A.
Qed.
Lemma strip_solid : forall s, every solid s = true -> strip s = s.
Proof.
  intros s H. unfold strip. replace (lstrip s) with s; [now apply rstrip_solid|]. destruct s as [|a s]; [reflexivity|]. cbn in H.
  apply andb_true_iff in H as [A _]. unfold solid in A. apply negb_true_iff in A. cbn. now rewrite A.
Qed.
Lemma digits_solid : forall s, every is_digit s = true -> every solid s = true.
Proof. intros s. apply every_weaken. intros a A. unfold solid. now rewrite (digit_not_space a A). Qed.
Lemma digits_show : forall n, digits (show_nat n) = Some (Z.of_nat n).
Proof.
  intros n. unfold digits. destruct (show_nat_first n) as (a & r & E & D). rewrite E. rewrite <- E. unfold show_nat. now rewrite NilEmpty.usu, Unsigned.of_to.
Qed.
Lemma py_int_show : forall n, py_int (show_nat n) = Some (Z.of_nat n).
Proof.
  intros n. unfold py_int. rewrite strip_solid by (apply digits_solid, show_nat_digits). destruct (show_nat_first n) as (a & r & E & D).
  rewrite <- (digits_show n), E. destruct a as [[] [] [] [] [] [] [] []]; try reflexivity; discriminate.
Qed.
Lemma py_int_show_Z : forall z, py_int (show_Z z) = Some z.
Proof.
  intros z. unfold show_Z. destruct (Z.ltb_spec z 0).
  - unfold py_int. rewrite strip_solid by (rewrite every_append; cbn; apply digits_solid, show_nat_digits). cbn [String.append].
    rewrite digits_show. cbn. f_equal. lia.
  - cbn [String.append]. rewrite py_int_show. f_equal. lia.
Qed.
Lemma show_nat_has_digit : forall n r, has_digit (show_nat n ++ r) = true.
Proof. intros n r. destruct (show_nat_first n) as (a & t & -> & D). cbn. now rewrite D. Qed.
Lemma py_float_text : forall x, py_float (text x) = Some (amount x).
Proof.
  intros [k z]. unfold amount. cbn [decimals units]. set (q := z # Z.to_pos (10 ^ Z.of_nat k)).
  set (body := match k with O => show_nat (Z.abs_nat z) | S _ => (show_nat (Z.to_nat (Z.abs z / 10 ^ Z.of_nat k)) ++ "." ++ padded k (Z.abs z mod 10 ^ Z.of_nat k))%string end).
  assert (T : text (Number k z) = ((if (z <? 0)%Z then "-" else "") ++ body)%string)
    by (unfold text, body, fixed; cbn [decimals units]; destruct k; reflexivity).
  rewrite T. clear T.
  assert (S : every solid body = true).
  { unfold body. destruct k; [apply digits_solid, show_nat_digits|]. rewrite !every_append. cbn [every]. rewrite (digits_solid _ (show_nat_digits _)), (digits_solid _ (padded_digits _ _)).
    reflexivity. }
  assert (F : exists a r, body = String a r /\ is_digit a = true).
  { unfold body. destruct k; [apply show_nat_first|]. destruct (show_nat_first (Z.to_nat (Z.abs z / 10 ^ Z.of_nat (Datatypes.S k)))) as (a & r & -> & D).
    eexists; eexists; split; [reflexivity|assumption]. }
  assert (V : unsigned body = Some (Z.abs z # Z.to_pos (10 ^ Z.of_nat k))).
  { unfold unsigned. replace (has_digit body) with true by (unfold body; destruct k; [rewrite <- (append_nil (show_nat _))|]; symmetry; apply show_nat_has_digit).
    replace (DetectorText.scan body 0 false 0) with (Some (Z.abs z, k)); [reflexivity|]. symmetry. unfold body. destruct k as [|k'].
    - rewrite <- (append_nil (show_nat _)), scan_nat. cbn. f_equal. f_equal. lia.
    - set (k := Datatypes.S k'). pose proof (scan_fixed k (Z.abs z) (Z.abs_nonneg z)) as H. exact H. }
  unfold py_float. destruct (Z.ltb_spec z 0).
  - rewrite strip_solid by (rewrite every_append; cbn; exact S). cbn [String.append]. rewrite V. cbn. unfold q, Qopp. cbn. f_equal. f_equal. lia.
  - cbn [String.append]. rewrite strip_solid by exact S. destruct F as (a & r & E & D). rewrite E in V |- *.
    replace (Z.abs z) with z in V by lia. fold q in V. rewrite <- V. destruct a as [[] [] [] [] [] [] [] []]; try reflexivity; discriminate.
Qed.
Lemma two_ints_by : forall a b, two_ints (by_text a b) = Some (Z.of_nat a, Z.of_nat b).
Proof.
  intros a b. unfold two_ints, by_text. change ("x" ++ show_nat b)%string with (String "x" (show_nat b)).
  rewrite split_append by (apply digits_without; [reflexivity|apply show_nat_digits]).
  rewrite split_none by (apply digits_without; [reflexivity|apply show_nat_digits]). now rewrite !py_int_show.
Qed.

(** Digits in a text. *)
Lemma numbers_skip : forall t r, every (fun a => negb (is_digit a)) t = true -> numbers (t ++ r) = numbers r.
Proof.
  induction t as [|a t IH]; intros r H; [reflexivity|]. cbn in H. apply andb_true_iff in H as [A B]. apply negb_true_iff in A.
  cbn. rewrite A. now apply IH.
Qed.
Lemma numbers_run : forall t a c r, every is_digit (String a t) = true -> is_digit c = false ->
  numbers (String a t ++ String c r) = String a t :: numbers (String c r).
Proof.
  induction t as [|b t IH]; intros a c r H C; cbn in H; apply andb_true_iff in H as [A B].
  - cbn. rewrite A, C. reflexivity.
  - pose proof (IH b c r B C) as E. apply andb_true_iff in B as [B _]. change ((String a (String b t) ++ String c r)%string) with (String a (String b t ++ String c r)).
    cbn [numbers]. rewrite A. cbn [String.append]. rewrite B. change (String b (t ++ String c r)) with (String b t ++ String c r)%string. rewrite E. reflexivity.
Qed.
Lemma numbers_digits : forall t c r, t <> "" -> every is_digit t = true -> is_digit c = false -> numbers (t ++ String c r) = t :: numbers (String c r).
Proof. intros [|a t] c r N H C; [contradiction|]. now apply numbers_run. Qed.
Lemma numbers_skip1 : forall c r, is_digit c = false -> numbers (String c r) = numbers r.
Proof. intros c r C. cbn. now rewrite C. Qed.
Lemma show_nat_nonempty : forall n, show_nat n <> "".
Proof. intros n. destruct (show_nat_first n) as (a & r & -> & _). discriminate. Qed.
Lemma padded_nonempty : forall k n, padded (S k) n <> "".
Proof. intros k n. cbn. destruct (padded k (n / 10)); discriminate. Qed.
Lemma after_start : forall l r, after l (l ++ r) = Some r.
Proof.
  intros l r. unfold after. apply search_start. induction r as [|a r IH]; [reflexivity|]. cbn. now rewrite IH.
Qed.
Lemma numbers_none : forall u, every (fun a => negb (is_digit a)) u = true -> numbers u = [].
Proof. intros u H. rewrite <- (append_nil u). now rewrite numbers_skip. Qed.
(** The region of interest. *)
Lemma numbers_length : forall k z px u, every (fun a => negb (is_digit a)) u = true -> (0 <= z)%Z ->
  numbers (tabulator ++ length_text (Number (S k) z) px ++ tabulator ++ u)
  = [show_nat (Z.to_nat (z / 10 ^ Z.of_nat (S k))); padded (S k) (z mod 10 ^ Z.of_nat (S k)); show_nat px].
Proof.
  intros k z px u U Z. unfold length_text, text. cbn [decimals units]. unfold fixed.
  destruct (Z.ltb_spec z 0); [lia|]. rewrite Z.abs_eq by assumption. cbn [String.append].
  set (j := Datatypes.S k). rewrite numbers_skip by reflexivity.
  rewrite !append_assoc. cbn [String.append].
  rewrite numbers_digits by (apply show_nat_nonempty || apply show_nat_digits || reflexivity). f_equal. rewrite numbers_skip1 by reflexivity.
  rewrite numbers_digits by (apply padded_nonempty || apply padded_digits || reflexivity). f_equal. rewrite !numbers_skip1 by reflexivity.
  rewrite !append_assoc. cbn [String.append].  rewrite numbers_digits by (apply show_nat_nonempty || apply show_nat_digits || reflexivity). f_equal. rewrite numbers_skip1 by reflexivity.
  rewrite numbers_skip by reflexivity. now apply numbers_none.
Qed.
Lemma py_float_parts : forall k z, (0 <= z)%Z ->
  py_float (show_nat (Z.to_nat (z / 10 ^ Z.of_nat (S k))) ++ "." ++ padded (S k) (z mod 10 ^ Z.of_nat (S k))) = Some (amount (Number (S k) z)).
Proof.
  intros k z Z. rewrite <- py_float_text. f_equal. unfold text, fixed. cbn [decimals units]. destruct (Z.ltb_spec z 0); [lia|]. now rewrite Z.abs_eq.
Qed.
Lemma read_roi_entry : forall content l k z px u line_no, every (fun a => negb (is_digit a)) u = true -> (0 <= z)%Z ->
  get_line content line_no = Some (entry_text (Entry l (length_text (Number (S k) z) px) u)) ->
  read_roi content l line_no = (Z.of_nat px, amount (Number (S k) z)).
Proof.
  intros content l k z px u line_no U Z L. unfold read_roi. rewrite L. cbn [bind]. unfold entry_text. cbn [label value unit]. rewrite after_start. cbn [bind].
  rewrite numbers_length by assumption. now rewrite py_int_show, py_float_parts.
Qed.
(** Calibration patterns. *)
Lemma search_point : forall p v u, free ")" v -> free ")" u -> search "Calibration (" ")" (entry_text (Entry (point_text p) v u)) = Some (show_nat (fst p) ++ "," ++ show_nat (snd p))%string.
Proof.
  intros [x y] v u V U. unfold entry_text, point_text. cbn [label value unit fst snd].
  rewrite (append_assoc "Calibration ("). apply search_start. rewrite !append_assoc.
  replace (show_nat x ++ "," ++ show_nat y ++ ")" ++ tabulator ++ v ++ tabulator ++ u)%string
    with ((show_nat x ++ "," ++ show_nat y) ++ String ")" ("" ++ (tabulator ++ v ++ tabulator ++ u)))%string by (rewrite !append_assoc; reflexivity).
  apply before_last_value.
  - rewrite !free_append. assert (F : forall n, free ")" (show_nat n)) by (intros n; apply free_every, digits_without; [reflexivity|apply show_nat_digits]).
    cbn [free]. repeat split; try apply F. discriminate.
  - cbn [String.append]. rewrite !free_append. cbn. repeat split; try assumption; discriminate.
Qed.
Lemma point_numbers : forall x y, all_some (map py_int (split "," (show_nat x ++ "," ++ show_nat y))) = Some [Z.of_nat x; Z.of_nat y].
Proof.
  intros x y. change ("," ++ show_nat y)%string with (String "," (show_nat y)). rewrite split_append by (apply digits_without; [reflexivity|apply show_nat_digits]).
  rewrite split_none by (apply digits_without; [reflexivity|apply show_nat_digits]). cbn [map]. now rewrite !py_int_show.
Qed.
Lemma search_none : forall pre suf s, contains pre s = false -> search pre suf s = None.
Proof.
  intros pre suf. induction s as [|a s IH]; intros H; cbn [contains] in H; apply orb_false_iff in H as [P C]; cbn [search]; rewrite P; [reflexivity|]. now apply IH.
Qed.
Lemma read_indices_none : forall ls, (forall l, In l ls -> contains "Calibration (" l = false) -> read_indices ls = Some [].
Proof.
  induction ls as [|l ls IH]; intros H; [reflexivity|]. cbn [read_indices]. rewrite search_none by (apply H; now left). apply IH. intros k K. apply H. now right.
Qed.
Lemma read_indices_points : forall es ps rest r, Forall2 point_entry es ps -> read_indices rest = Some r ->
  read_indices (map entry_text es ++ rest) = Some (map (fun p => [Z.of_nat (snd p); Z.of_nat (fst p)]) ps ++ r).
Proof.
  intros es ps rest r F R. induction F as [|[l v u] [x y] es ps (L & V & U) F IH]; [exact R|]. cbn [label value unit] in L, V, U. subst l.
  cbn [map List.app read_indices]. rewrite search_point by assumption. cbn [fst snd]. rewrite point_numbers. cbn [bind]. rewrite IH. reflexivity.
Qed.
Lemma skip_to_entries : forall n before es after,
  skipn (Z.to_nat (Z.of_nat (List.length (document before)) + 1)) (document (before ++ Block n es :: after))
  = map entry_text es ++ [(tabulator ++ tabulator)%string] ++ document after.
Proof.
  intros n before es after. rewrite document_app. replace (Z.to_nat (Z.of_nat (List.length (document before)) + 1)) with (List.length (document before) + 1)%nat by lia.
  rewrite skipn_app. replace (List.length (document before) + 1 - List.length (document before))%nat with 1%nat by lia.
  rewrite skipn_all2 by lia. cbn [List.app]. change (document (Block n es :: after)) with (block_text (Block n es) ++ document after).
  unfold block_text. cbn [name entries List.app skipn]. now rewrite <- app_assoc.
Qed.

(** Rounding. *)
Lemma round_nearest : forall q, (Qabs (inject_Z (NordifSettings.round_half_even q) - q) <= 1 # 2)%Q.
Proof.
  intros q. unfold NordifSettings.round_half_even. pose proof (Qround.Qfloor_le q) as L. pose proof (Qround.Qlt_floor q) as H. set (f := Qround.Qfloor q) in *.
  rewrite inject_Z_plus in H. change (inject_Z 1) with 1%Q in H.
  assert (A : (q - inject_Z f <= 1 # 2)%Q -> (Qabs (inject_Z f - q) <= 1 # 2)%Q).
  { intros B. apply Qabs_Qle_condition. split; [|]; apply Qle_minus_iff in B; apply Qle_minus_iff; apply Qle_minus_iff in L.
    - setoid_replace (inject_Z f - q + - - (1 # 2))%Q with ((1 # 2) + - (q - inject_Z f))%Q by ring. exact B.
    - setoid_replace ((1 # 2) + - (inject_Z f - q))%Q with ((1 # 2) + (q + - inject_Z f))%Q by ring. apply (Qplus_le_compat 0 (1 # 2) 0) in L; [exact L|discriminate]. }
  assert (B : (1 # 2 <= q - inject_Z f)%Q -> (Qabs (inject_Z (f + 1) - q) <= 1 # 2)%Q).
  { intros B. rewrite inject_Z_plus. change (inject_Z 1) with 1%Q. apply Qabs_Qle_condition. apply Qle_minus_iff in B. apply Qlt_le_weak, Qle_minus_iff in H.
    split; apply Qle_minus_iff.
    - setoid_replace (inject_Z f + 1 - q + - - (1 # 2))%Q with ((1 # 2) + (inject_Z f + 1 + - q))%Q by ring. apply (Qplus_le_compat 0 (1 # 2) 0) in H; [exact H|discriminate].
    - setoid_replace ((1 # 2) + - (inject_Z f + 1 - q))%Q with (q - inject_Z f + - (1 # 2))%Q by ring. exact B. }
  destruct (Qcompare_spec (q - inject_Z f) (1 # 2)) as [E|E|E].
  - destruct (Z.even f); [apply A; rewrite E; apply Qle_refl|apply B; rewrite E; apply Qle_refl].
  - apply A. now apply Qlt_le_weak.
  - apply B. now apply Qlt_le_weak.
Qed.
