From Coq Require Import List Arith ZArith Bool Lia.
From Verif Require Import Model.MapOverlap.
Import ListNotations.

Lemma locate_total start i chunks : start <= i < start + total chunks ->
  exists s c, locate start i chunks = Some (s, c) /\ start <= s /\ s <= i < s + c /\ s + c <= start + total chunks.
Proof.
  revert start. induction chunks as [|c r IH]; intros start H; simpl in *; [lia|].
  destruct (Nat.ltb_spec i (start + c)).
  - exists start, c. repeat split; lia.
  - destruct (IH (start + c)) as (s & k & E & H1 & H2 & H3); [lia|]. exists s, k. repeat split; try lia. exact E.
Qed.

Lemma look_sub {A} (m : amap A) y0 y1 x0 x1 (y x : Z) :
  y0 <= y1 -> y1 <= nrows m -> x0 <= x1 -> x1 <= ncols m ->
  (Z.of_nat y0 <= y < Z.of_nat y1 \/ y < 0 /\ y0 = 0%nat \/ Z.of_nat (nrows m) <= y /\ y1 = nrows m)%Z ->
  (Z.of_nat x0 <= x < Z.of_nat x1 \/ x < 0 /\ x0 = 0%nat \/ Z.of_nat (ncols m) <= x /\ x1 = ncols m)%Z ->
  look (sub m y0 y1 x0 x1) (y - Z.of_nat y0) (x - Z.of_nat x0) = look m y x.
Proof.
  intros H1 H2 H3 H4 Hy Hx. unfold look.
  assert (E : inside (sub m y0 y1 x0 x1) (y - Z.of_nat y0) (x - Z.of_nat x0) = inside m y x).
  { unfold inside, sub. cbn [nrows ncols].
    apply eq_iff_eq_true. rewrite !andb_true_iff, !Z.leb_le, !Z.ltb_lt. lia. }
  rewrite E. destruct (inside m y x) eqn:I; [|reflexivity].
  unfold inside in I. rewrite !andb_true_iff, !Z.leb_le, !Z.ltb_lt in I.
  cbn [sub at_]. f_equal. f_equal; lia.
Qed.

(** If what F gives at a point depends only on the elements within [ry] rows before and [ry'] rows
    after it (and similarly for columns), then map_overlap with at least that depth in the axes
    that are chunked gives what F gives for the whole map. *)
Definition local {A B} (ry ry' rx rx' : nat) (F : amap A -> nat -> nat -> B) : Prop :=
  forall m m' y x y' x',
    y < nrows m -> x < ncols m -> y' < nrows m' -> x' < ncols m' ->
    (forall i j, - Z.of_nat ry <= i <= Z.of_nat ry' -> - Z.of_nat rx <= j <= Z.of_nat rx' ->
       look m (Z.of_nat y + i) (Z.of_nat x + j) = look m' (Z.of_nat y' + i) (Z.of_nat x' + j))%Z ->
    F m y x = F m' y' x'.

Lemma map_overlap_whole {A B} merge (F : amap A -> nat -> nat -> B) ychunks xchunks dy dx m ry ry' rx rx' G :
  merges merge -> total ychunks = nrows m -> total xchunks = ncols m ->
  local ry ry' rx rx' F ->
  (ry <= dy /\ ry' <= dy \/ forall i, i < nrows m -> locate 0 i (merge dy ychunks) = Some (0, nrows m)) ->
  (rx <= dx /\ rx' <= dx \/ forall i, i < ncols m -> locate 0 i (merge dx xchunks) = Some (0, ncols m)) ->
  map_overlap merge F ychunks xchunks dy dx m = Some G ->
  forall y x, y < nrows m -> x < ncols m -> G y x = Some (F m y x).
Proof.
  intros [M1 _] Ty Tx L Dy Dx H y x Hy Hx. unfold map_overlap in H.
  destruct ((nrows m <? dy) || (ncols m <? dx))%bool; [discriminate|]. injection H as <-.
  destruct (locate_total 0 y (merge dy ychunks)) as (ys & yc & Ey & _ & Y1 & Y2); [rewrite M1; lia|].
  destruct (locate_total 0 x (merge dx xchunks)) as (xs & xc & Ex & _ & X1 & X2); [rewrite M1; lia|].
  rewrite M1, Ty in Y2. rewrite M1, Tx in X2. simpl in Y2, X2.
  rewrite Ey, Ex. f_equal.
  assert (Ydone : ry <= dy /\ ry' <= dy \/ ys = 0 /\ yc = nrows m).
  { destruct Dy as [|E]; [left; assumption|]. right. rewrite (E y Hy) in Ey.
    injection Ey as <- <-. split; reflexivity. }
  assert (Xdone : rx <= dx /\ rx' <= dx \/ xs = 0 /\ xc = ncols m).
  { destruct Dx as [|E]; [left; assumption|]. right. rewrite (E x Hx) in Ex.
    injection Ex as <- <-. split; reflexivity. }
  apply L; cbn [sub nrows ncols]; try lia.
  intros i j Hi Hj.
  replace (Z.of_nat (y - (ys - dy)) + i)%Z with (Z.of_nat y + i - Z.of_nat (ys - dy))%Z by lia.
  replace (Z.of_nat (x - (xs - dx)) + j)%Z with (Z.of_nat x + j - Z.of_nat (xs - dx))%Z by lia.
  apply look_sub; lia.
Qed.

Lemma total_max chunks : fold_right Nat.max 0 chunks = total chunks ->
  forall i, i < total chunks -> locate 0 i chunks = Some (0, total chunks).
Proof.
  assert (Hle : forall c, fold_right Nat.max 0 c <= total c).
  { induction c as [|a c IH]; simpl; [lia|]. lia. }
  induction chunks as [|c r IH]; simpl; intros E i Hi; [lia|].
  pose proof (Hle r) as Hr.
  destruct (Nat.eq_dec c 0) as [->|Hc].
  - simpl. apply IH; lia.
  - assert (H : total r = 0) by lia. rewrite H, Nat.add_0_r in *. rewrite (proj2 (Nat.ltb_lt _ _)) by lia. reflexivity.
Qed.
