(** Lemmas about markers of simulations. *)
From Coq Require Import Ascii String DecimalString Decimal List Arith ZArith Reals Bool Lia Lra.
From Verif Require Import Model.Detector Model.KikuchiLines Model.SimulationMarkers Model.DetectorText Proofs.DetectorTextProofs Spec.PatternLabels.
Import ListNotations.
Local Open Scope nat_scope.
Local Open Scope list_scope.

(** ** Object arrays *)
Lemma nth_error_flat_map_seq {A} (f : nat -> list A) m : forall n a k j, (forall i, length (f i) = m) -> k < n -> j < m ->
  nth_error (flat_map f (seq a n)) (k * m + j) = nth_error (f (a + k)) j.
Proof.
  induction n as [|n IH]; intros a k j L Hk Hj; [lia|]. cbn [seq flat_map]. destruct k as [|k].
  - rewrite nth_error_app1 by (rewrite L; lia). cbn. now rewrite Nat.add_0_r.
  - rewrite nth_error_app2 by (rewrite L; lia). rewrite L. replace (S k * m + j - m) with (k * m + j) by lia.
    rewrite IH by (auto || lia). f_equal. f_equal. lia.
Qed.
Lemma flat_map_seq_length {A} (f : nat -> list A) m : forall n a, (forall i, length (f i) = m) -> length (flat_map f (seq a n)) = n * m.
Proof. induction n as [|n IH]; intros a L; cbn [seq flat_map]; [reflexivity|]. rewrite app_length, L, IH by exact L. lia. Qed.
Lemma ndindex_line n : ndindex [n] = map (fun k => [k]) (seq 0 n).
Proof.
  cbn [ndindex]. generalize 0. induction n as [|n IH]; intros a; [reflexivity|]. cbn [seq flat_map map app] in *. now rewrite IH.
Qed.
Lemma shown_objects {A} nav pos i (f : nat -> A) : pattern_at nav pos i -> shown (objects nav f) pos = Some (f i).
Proof.
  intros [n x Hx|rows columns x y Hx Hy]; cbn [objects rev app shown place fold_right].
  - rewrite ndindex_line, map_map, Nat.mul_1_r, Nat.add_0_r, nth_error_map.
    rewrite (nth_error_nth' (seq 0 n) 0) by (rewrite seq_length; lia). rewrite seq_nth by lia. cbn. do 2 f_equal. lia.
  - rewrite !Nat.mul_1_r, Nat.add_0_r, nth_error_map.
    assert (E : nth_error (ndindex [columns; rows]) (x * rows + y) = Some [x; y]).
    { change (ndindex [columns; rows]) with (flat_map (fun k => map (cons k) (ndindex [rows])) (seq 0 columns)).
      rewrite (nth_error_flat_map_seq _ rows) by (try lia; intros; rewrite ndindex_line, !map_length, seq_length; reflexivity).
      rewrite ndindex_line, !nth_error_map. rewrite (nth_error_nth' (seq 0 rows) 0) by (rewrite seq_length; lia). rewrite seq_nth by lia. reflexivity. }
    rewrite E. cbn [option_map rev app place fold_right]. f_equal. f_equal. lia.
Qed.
Lemma pattern_at_range nav pos i : pattern_at nav pos i -> i < fold_right Nat.mul 1 nav.
Proof. intros [n x Hx|rows columns x y Hx Hy]; cbn [fold_right]; nia. Qed.
(** The same for arrays of which the making of an element may fail. *)
Lemma all_some_map {A B} (f : A -> option B) l : (forall x, In x l -> f x <> None) ->
  exists r, SimulationMarkers.all_some (map f l) = Some r /\ forall k x, nth_error l k = Some x -> nth_error r k = f x.
Proof.
  induction l as [|a l IH]; intros H; cbn [map SimulationMarkers.all_some].
  - exists []. split; [reflexivity|]. intros [|k] x E; discriminate.
  - destruct IH as (r & E & N); [intros x Hx; apply H; now right|]. destruct (f a) as [b|] eqn:Ea; [|exfalso; now apply (H a (or_introl eq_refl))].
    cbn. exists (b :: r). rewrite E. split; [reflexivity|]. intros [|k] x K; cbn in *; [injection K as <-; now rewrite Ea|now apply N].
Qed.
Lemma ndindex_at nav pos i : pattern_at nav pos i -> nth_error (ndindex (rev nav)) (place (rev nav) pos) = Some pos /\ place nav (rev pos) = i.
Proof.
  intros P. pose proof (shown_objects nav pos i (fun k => k) P) as E.
  destruct P as [n x Hx|rows columns x y Hx Hy]; cbn [rev app place fold_right] in *.
  - rewrite ndindex_line, Nat.mul_1_r, Nat.add_0_r, nth_error_map, (nth_error_nth' (seq 0 n) 0) by (rewrite seq_length; lia).
    rewrite seq_nth by lia. split; reflexivity || lia.
  - rewrite !Nat.mul_1_r, Nat.add_0_r. split; [|lia].
    change (ndindex [columns; rows]) with (flat_map (fun k => map (cons k) (ndindex [rows])) (seq 0 columns)).
    rewrite (nth_error_flat_map_seq _ rows) by (try lia; intros; rewrite ndindex_line, !map_length, seq_length; reflexivity).
    rewrite ndindex_line, !nth_error_map. rewrite (nth_error_nth' (seq 0 rows) 0) by (rewrite seq_length; lia). rewrite seq_nth by lia. reflexivity.
Qed.

(** ** Labels *)
Lemma without_append s t : without_brackets (s ++ t)%string = (without_brackets s ++ without_brackets t)%string.
Proof.
  induction s as [|c s IH]; cbn [without_brackets append]; [reflexivity|]. rewrite IH. now destruct (_ || _).
Qed.
Lemma without_spaces n : without_brackets (spaces n) = EmptyString.
Proof. induction n; cbn; auto. Qed.
Definition plain (a : ascii) : bool := is_digit a || Ascii.eqb a "-".
Lemma uint_plain u : every plain (NilEmpty.string_of_uint u) = true.
Proof. induction u; cbn in *; auto. Qed.
Lemma nil_zero_plain u : every plain (NilZero.string_of_uint u) = true.
Proof. unfold NilZero.string_of_uint. destruct u; try reflexivity; exact (uint_plain _). Qed.
Lemma decimal_plain z : every plain (decimal z) = true.
Proof. unfold decimal, NilZero.string_of_int. destruct (Z.to_int z); cbn [every]; [|cbn]; exact (nil_zero_plain _). Qed.
Lemma without_plain s : every plain s = true -> without_brackets s = s.
Proof.
  induction s as [|c s IH]; cbn [every without_brackets]; [reflexivity|]. intros H. apply andb_true_iff in H as [A B].
  destruct (_ || _) eqn:E; [|now rewrite IH]. exfalso.
  apply orb_true_iff in E as [E|E]; [apply orb_true_iff in E as [E|E]|]; apply Ascii.eqb_eq in E; subst c; discriminate A.
Qed.
Lemma every_app P s t : every P (s ++ t)%string = every P s && every P t.
Proof. induction s as [|c s IH]; cbn [every append]; [reflexivity|]. now rewrite IH, andb_assoc. Qed.
Lemma row_label w u : without_brackets (row_text w u) = label_of u.
Proof.
  unfold row_text, SimulationMarkers.padded, label_of. rewrite !without_append, !without_spaces. cbn [append]. 
  change text_of with decimal. rewrite !(without_plain (decimal _)) by apply decimal_plain.
  cbn [without_brackets Ascii.eqb Bool.eqb orb append]. f_equal. f_equal.
  induction (decimal (i3 u)) as [|c s IH]; cbn; [reflexivity|now rewrite IH].
Qed.
Lemma without_join sep l : without_brackets (join sep l) = join (without_brackets sep) (map without_brackets l).
Proof.
  induction l as [|s [|s' l] IH]; cbn [join map] in *; [reflexivity|reflexivity|]. now rewrite !without_append, IH.
Qed.
Lemma label_no_newline u : every (fun a => negb (Ascii.eqb a newline)) (label_of u) = true.
Proof.
  unfold label_of. rewrite !every_app, !andb_true_iff. assert (P : forall z, every (fun a => negb (Ascii.eqb a newline)) (decimal z) = true).
  { intros z. generalize (decimal_plain z). generalize (decimal z). induction s as [|c s IH]; cbn [every]; [reflexivity|].
    intros H. apply andb_true_iff in H as [A B]. rewrite IH by exact B. rewrite andb_true_r. apply negb_true_iff.
    destruct (Ascii.eqb_spec c newline) as [->|]; [discriminate A|reflexivity]. }
  repeat split; apply P.
Qed.
Lemma append_nil_r s : (s ++ "")%string = s.
Proof. induction s; cbn; congruence. Qed.
Lemma append_assoc_s s t r : ((s ++ t) ++ r = s ++ (t ++ r))%string.
Proof. induction s; cbn; congruence. Qed.
Lemma split_join l : l <> [] -> split newline (join (String newline "") (map label_of l)) = map label_of l.
Proof.
  intros N. induction l as [|a [|b l] IH]; [contradiction| |].
  - cbn [map join]. apply split_none, label_no_newline.
  - cbn [map join] in *. rewrite <- IH by discriminate. cbn [append]. apply split_append, label_no_newline.
Qed.
Lemma labels_eq s : zones s <> [] -> labels s = map label_of (zones s).
Proof.
  intros N. unfold labels, array2string. rewrite !without_append, without_join. cbn [without_brackets Ascii.eqb Bool.eqb orb append].
  rewrite append_nil_r, map_map. change (without_brackets (String newline " ")) with (String newline "").
  rewrite (map_ext _ label_of) by (intros; apply row_label). now apply split_join.
Qed.
Lemma labels_empty s : zones s = [] -> labels s = [""%string].
Proof. intros E. unfold labels. now rewrite E. Qed.

Lemma boolean_index_spec {A B} (l : list A) (keep : list (option B)) : length l = length keep ->
  boolean_index l keep = Some (flat_map (fun p => match snd p with Some _ => [fst p] | None => [] end) (combine l keep)).
Proof.
  revert keep. induction l as [|a l IH]; intros [|k keep] H; try discriminate; [reflexivity|]. cbn [boolean_index combine flat_map fst snd].
  rewrite IH by (injection H; auto). destruct k; reflexivity.
Qed.
Lemma boolean_index_fails {A B} (l : list A) (keep : list (option B)) : length l <> length keep -> boolean_index l keep = None.
Proof.
  revert keep. induction l as [|a l IH]; intros [|k keep] H; cbn in *; try lia; [reflexivity..|]. rewrite IH by lia. reflexivity.
Qed.
Lemma kept_map {A} (l : list (option A)) : kept l = map Some (exclude_nan l).
Proof. unfold kept, exclude_nan. induction l as [|[a|] l IH]; cbn; [reflexivity| |]; now rewrite ?IH. Qed.

(** ** Texts of small integers *)
Lemma digit_text a : (-9 <= a <= 9)%Z ->
  In (a, decimal a) [(-9, "-9"); (-8, "-8"); (-7, "-7"); (-6, "-6"); (-5, "-5"); (-4, "-4"); (-3, "-3"); (-2, "-2"); (-1, "-1"); (0, "0");
    (1, "1"); (2, "2"); (3, "3"); (4, "4"); (5, "5"); (6, "6"); (7, "7"); (8, "8"); (9, "9")]%Z%string.
Proof.
  intros H. assert (C : (a = -9 \/ a = -8 \/ a = -7 \/ a = -6 \/ a = -5 \/ a = -4 \/ a = -3 \/ a = -2 \/ a = -1 \/ a = 0 \/
    a = 1 \/ a = 2 \/ a = 3 \/ a = 4 \/ a = 5 \/ a = 6 \/ a = 7 \/ a = 8 \/ a = 9)%Z) by lia.
  repeat (destruct C as [->|C]; [cbn; tauto|]). subst a. cbn. tauto.
Qed.
Lemma first_digit a b s t : (-9 <= a <= 9)%Z -> (-9 <= b <= 9)%Z -> (decimal a ++ s = decimal b ++ t)%string -> a = b /\ s = t.
Proof.
  intros Ha Hb. pose proof (digit_text a Ha) as A. pose proof (digit_text b Hb) as B. 
  cbn [In] in A, B.
  repeat (destruct A as [A|A]; [injection A as <- <-|]); try contradiction;
  repeat (destruct B as [B|B]; [injection B as <- <-|]); try contradiction; cbn [append]; intros E; try discriminate E; injection E as ->; auto.
Qed.
