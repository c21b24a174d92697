(** General list lemmas used by several proof files. *)
From Coq Require Import List Arith Lia.
Import ListNotations.

Lemma nth_error_seq a n i : i < n -> nth_error (seq a n) i = Some (a + i).
Proof.
  revert a i. induction n as [|n IH]; intros a i H; [lia|].
  destruct i as [|i]; simpl; [f_equal; lia|]. rewrite IH by lia. f_equal. lia.
Qed.

(** Row-major (C order) grids. *)
Definition grid {A} (g : nat -> nat -> A) (ny nx : nat) : list A :=
  flat_map (fun y => map (fun x => g y x) (seq 0 nx)) (seq 0 ny).

Lemma flat_map_rows_nth {A} (g : nat -> nat -> A) nx ny a y x :
  y < ny -> x < nx ->
  nth_error (flat_map (fun y => map (fun x => g y x) (seq 0 nx)) (seq a ny)) (y * nx + x) = Some (g (a + y) x).
Proof.
  revert a y. induction ny as [|ny IH]; intros a y Hy Hx; [lia|].
  simpl. destruct y as [|y].
  - rewrite nth_error_app1 by (rewrite map_length, seq_length; lia).
    rewrite nth_error_map. simpl. rewrite nth_error_seq by lia. simpl. rewrite Nat.add_0_r. reflexivity.
  - rewrite nth_error_app2 by (rewrite map_length, seq_length; nia).
    rewrite map_length, seq_length. replace (S y * nx + x - nx) with (y * nx + x) by nia.
    rewrite IH by lia. f_equal. f_equal. lia.
Qed.
Lemma grid_nth {A} (g : nat -> nat -> A) ny nx y x :
  y < ny -> x < nx -> nth_error (grid g ny nx) (y * nx + x) = Some (g y x).
Proof. intros. unfold grid. rewrite flat_map_rows_nth by assumption. reflexivity. Qed.
Lemma grid_length {A} (g : nat -> nat -> A) ny nx : length (grid g ny nx) = ny * nx.
Proof.
  unfold grid. generalize 0 at 2 as a. induction ny as [|ny IH]; intros a; simpl; [reflexivity|].
  rewrite app_length, map_length, seq_length, IH. reflexivity.
Qed.
