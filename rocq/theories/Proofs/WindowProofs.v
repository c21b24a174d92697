From Coq Require Import List Reals Arith ZArith Lra Lia Bool.
From Verif Require Import Model.Window Proofs.ListLemmas.
Import ListNotations.
Local Open Scope R_scope.

Lemma nth_error_combine {A B} (l : list A) (m : list B) i :
  nth_error (combine l m) i =
  match nth_error l i, nth_error m i with Some a, Some b => Some (a, b) | _, _ => None end.
Proof.
  revert m i. induction l as [|a l IH]; intros [|b m] [|i]; simpl; try reflexivity.
  - destruct (nth_error l i); reflexivity.
  - apply IH.
Qed.
Lemma nth_error_mapi {A B} (f : nat -> A -> B) l i :
  nth_error (mapi f l) i = option_map (f i) (nth_error l i).
Proof.
  unfold mapi. rewrite nth_error_map, nth_error_combine.
  destruct (lt_dec i (length l)) as [H|H].
  - rewrite nth_error_seq by exact H. destruct (nth_error l i); reflexivity.
  - rewrite (proj2 (nth_error_None l i)) by lia.
    destruct (nth_error (seq 0 (length l)) i); reflexivity.
Qed.
Lemma mapi_length {A B} (f : nat -> A -> B) l : length (mapi f l) = length l.
Proof. unfold mapi. rewrite map_length, combine_length, seq_length. lia. Qed.
Lemma nth_error_repeat {A} (a : A) n i : (i < n)%nat -> nth_error (repeat a n) i = Some a.
Proof. revert i. induction n as [|n IH]; intros [|i] H; simpl; try lia; [reflexivity|]. apply IH. lia. Qed.

(** Squared distances compare like distances. *)
Lemma distance_le oy ox y x m :
  distance oy ox y x <= INR m
  <-> ((Z.of_nat y - Z.of_nat oy) ^ 2 + (Z.of_nat x - Z.of_nat ox) ^ 2 <= Z.of_nat m ^ 2)%Z.
Proof.
  unfold distance. set (d := ((Z.of_nat y - Z.of_nat oy) ^ 2 + (Z.of_nat x - Z.of_nat ox) ^ 2)%Z).
  assert (Hd : (0 <= d)%Z) by (unfold d; nia). apply IZR_le in Hd.
  assert (Em : INR m = sqrt (IZR (Z.of_nat m ^ 2))).
  { rewrite INR_IZR_INZ. replace (Z.of_nat m ^ 2)%Z with (Z.of_nat m * Z.of_nat m)%Z by ring.
    rewrite mult_IZR, sqrt_square; [reflexivity|]. apply IZR_le. lia. }
  rewrite Em. split; intros H.
  - apply le_IZR. apply sqrt_le_0; [exact Hd| |exact H]. apply IZR_le. nia.
  - apply sqrt_le_1_alt. apply IZR_le. exact H.
Qed.
Lemma circular_coefficient_eq ny nx y x c :
  circular_coefficient ny nx y x c =
  if ((Z.of_nat y - Z.of_nat (ny / 2)) ^ 2 + (Z.of_nat x - Z.of_nat (nx / 2)) ^ 2
      <=? Z.of_nat (Nat.max (ny / 2) (nx / 2)) ^ 2)%Z then c else 0.
Proof.
  unfold circular_coefficient.
  destruct (Rlt_dec _ _) as [H|H]; destruct (Z.leb_spec ((Z.of_nat y - Z.of_nat (ny / 2)) ^ 2 + (Z.of_nat x - Z.of_nat (nx / 2)) ^ 2)%Z
      (Z.of_nat (Nat.max (ny / 2) (nx / 2)) ^ 2)%Z) as [E|E]; try reflexivity.
  - apply distance_le in E. lra.
  - exfalso. assert (distance (ny / 2) (nx / 2) y x <= INR (Nat.max (ny / 2) (nx / 2))) by lra.
    apply distance_le in H0. lia.
Qed.

Lemma circular_2d ny nx w : circular [ny; nx] = Some w ->
  (1 <= ny)%nat /\ (1 <= nx)%nat /\ (ny = 1 -> nx = 1)%nat /\ shape w = [ny; nx]
  /\ forall y x, (y < ny)%nat -> (x < nx)%nat -> coefficient w y x = Some (circular_coefficient ny nx y x 1).
Proof.
  unfold circular, rectangular. destruct (Nat.eqb_spec ny 0) as [|Hy]; [discriminate|].
  destruct (Nat.eqb_spec nx 0) as [|Hx]; [discriminate|]. simpl orb. cbv iota.
  unfold make_circular. rewrite repeat_length.
  assert (E1 : length (hd [] (repeat (repeat 1 nx) ny)) = nx).
  { destruct ny; [lia|]. simpl. apply repeat_length. }
  rewrite E1.
  destruct ((ny =? 1) && (1 <? nx))%nat%bool eqn:E; [discriminate|]. intros H. injection H as <-.
  repeat split; try lia.
  - intros ->. destruct (Nat.ltb_spec 1 nx); simpl in E; [discriminate|lia].
  - simpl. rewrite mapi_length, repeat_length. f_equal. f_equal.
    destruct ny; [lia|]. unfold mapi. simpl. rewrite map_length, combine_length, seq_length, repeat_length. lia.
  - intros y x H1 H2. simpl. rewrite nth_error_mapi, nth_error_repeat by exact H1. simpl.
    rewrite nth_error_mapi, nth_error_repeat by exact H2. reflexivity.
Qed.
