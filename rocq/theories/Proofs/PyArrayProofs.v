From Coq Require Import List Arith ZArith Lia.
From Verif Require Import Model.PyArray Proofs.ListLemmas.
Import ListNotations.

Lemma every_from_map {A B} (f : A -> B) s l c : every_from c s (map f l) = map f (every_from c s l).
Proof.
  revert c. induction l as [|x l IH]; intros c; simpl; [reflexivity|].
  destruct c; simpl; rewrite IH; reflexivity.
Qed.
Lemma every_map {A B} (f : A -> B) s l : every s (map f l) = map f (every s l).
Proof. apply every_from_map. Qed.

Lemma every_from_nth {A} s (l : list A) c i :
  1 <= s -> nth_error (every_from c s l) i = nth_error l (c + i * s).
Proof.
  intros Hs. revert c i. induction l as [|x l IH]; intros c i.
  - simpl. destruct i; simpl; destruct (c + _); reflexivity.
  - destruct c as [|c]; simpl.
    + destruct i as [|i]; simpl; [reflexivity|]. rewrite IH.
      replace (s - 1 + i * s) with (s + i * s - 1) by nia.
      destruct (s + i * s) as [|m] eqn:E; [nia|]. simpl. rewrite Nat.sub_0_r. reflexivity.
    + apply IH.
Qed.
Lemma every_nth {A} s (l : list A) i : 1 <= s -> nth_error (every s l) i = nth_error l (i * s).
Proof. intros H. unfold every. rewrite every_from_nth by exact H. reflexivity. Qed.

Lemma nth_error_ext {A} (l1 l2 : list A) : (forall i, nth_error l1 i = nth_error l2 i) -> l1 = l2.
Proof.
  revert l2. induction l1 as [|a l1 IH]; intros [|b l2] H; try reflexivity.
  - specialize (H 0). discriminate.
  - specialize (H 0). discriminate.
  - f_equal; [specialize (H 0); simpl in H; congruence|]. apply IH. intros i. exact (H (S i)).
Qed.

Lemma ceil_div_spec a b : 1 <= b -> a <= ceil_div a b * b < a + b.
Proof.
  intros Hb. unfold ceil_div.
  pose proof (Nat.div_mod (a + b - 1) b ltac:(lia)) as E.
  pose proof (Nat.mod_upper_bound (a + b - 1) b ltac:(lia)). nia.
Qed.
Lemma ceil_div_unique a b q : 1 <= b -> a <= q * b < a + b -> ceil_div a b = q.
Proof. intros Hb H. pose proof (ceil_div_spec a b Hb). nia. Qed.

(** The elements kept by a step from 0, 1, ..., n-1. *)
Lemma every_seq n s : 1 <= s -> every s (seq 0 n) = map (fun i => i * s) (seq 0 (ceil_div n s)).
Proof.
  intros Hs. apply nth_error_ext. intros i. rewrite every_nth by exact Hs.
  pose proof (ceil_div_spec n s Hs) as [H1 H2].
  destruct (lt_dec i (ceil_div n s)) as [Hi|Hi].
  - rewrite nth_error_seq by nia. rewrite nth_error_map, nth_error_seq by exact Hi. reflexivity.
  - rewrite (proj2 (nth_error_None _ _)) by (rewrite seq_length; nia).
    symmetry. apply nth_error_None. rewrite map_length, seq_length. lia.
Qed.

Lemma map_seq_shift {A} (f : nat -> A) a n : map f (seq (S a) n) = map (fun i => f (S i)) (seq a n).
Proof. rewrite <- seq_shift, map_map. reflexivity. Qed.

Lemma last_map_seq {A} (f : nat -> A) n d : 1 <= n -> last (map f (seq 0 n)) d = f (n - 1).
Proof.
  intros H. destruct n as [|n]; [lia|]. rewrite seq_S, map_app. simpl.
  rewrite last_last. f_equal. lia.
Qed.
