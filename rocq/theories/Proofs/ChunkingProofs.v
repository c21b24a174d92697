From Coq Require Import List Arith ZArith Bool Lia.
From Verif Require Import Model.Chunking Spec.Chunks.
Import ListNotations.

Lemma axis_length_sum cs : axis_length cs = list_sum cs. Proof. reflexivity. Qed.
Lemma axis_length_app l m : axis_length (l ++ m) = axis_length l + axis_length m.
Proof. rewrite !axis_length_sum. apply list_sum_app. Qed.
Lemma axis_length_repeat c k : axis_length (repeat c k) = k * c.
Proof. induction k; simpl; lia. Qed.

Lemma splits_total cs : splits (axis_length cs) cs.
Proof.
  split.
  - induction cs as [|c r IH]; simpl; intros i Hi; [lia|].
    destruct (lt_dec i c) as [Hc|Hc].
    + exists 0. split.
      * exists [], c, r. simpl. repeat split; lia.
      * intros k' (b & c' & a & E & Hl & Hb). destruct b as [|b0 b]; [simpl in Hl; lia|].
        injection E as -> ->. simpl in Hb. lia.
    + destruct (IH (i - c)) as (k & (b & c' & a & E & Hl & Hb) & Hu); [lia|].
      exists (S k). split.
      * exists (c :: b), c', a. subst r. simpl. repeat split; lia.
      * intros k' (b' & c2 & a' & E' & Hl' & Hb'). destruct b' as [|b0 b'].
        -- injection E' as -> ->. simpl in Hb'. lia.
        -- injection E' as -> E'. simpl in Hl', Hb'. subst k'. f_equal. apply Hu.
           exists b', c2, a'. repeat split; auto; lia.
  - intros i k (b & c & a & -> & _ & Hb). rewrite axis_length_sum, list_sum_app. simpl. lia.
Qed.

Lemma block_of_spec cs : forall i, i < axis_length cs ->
  start cs (fst (block_of cs i)) + snd (block_of cs i) = i
  /\ snd (block_of cs i) < nth (fst (block_of cs i)) cs 0 /\ fst (block_of cs i) < length cs.
Proof.
  induction cs as [|c r IH]; simpl; intros i Hi; [lia|].
  destruct (Nat.ltb_spec i c) as [Hc|Hc]; simpl.
  - unfold start. simpl. lia.
  - specialize (IH (i - c)). destruct (block_of r (i - c)) as [k o]. simpl in *.
    destruct IH as (E & Ho & Hk); [lia|]. unfold start in *. simpl. lia.
Qed.

Lemma compute_from_array {A} (data : index -> A) cs i : within_shape (map axis_length cs) i ->
  compute (from_array data cs) i = data i.
Proof.
  intros H. unfold compute, from_array. simpl. f_equal. revert i H.
  induction cs as [|c cs IH]; intros i H; inversion H; subst; simpl; [reflexivity|].
  f_equal.
  - destruct (block_of_spec c y) as (E & _); auto.
  - apply IH. auto.
Qed.

Lemma blockdims_length n c : 1 <= c -> axis_length (blockdims n c) = n.
Proof.
  intros Hc. unfold blockdims. destruct (Nat.eqb_spec n 0) as [->|Hn]; [reflexivity|].
  cbv zeta. set (m := Nat.min c n). assert (Hm : m <> 0) by (unfold m; lia).
  rewrite axis_length_app, axis_length_repeat. pose proof (Nat.div_mod n m Hm).
  destruct (Nat.eqb_spec (n mod m) 0); simpl; lia.
Qed.
Lemma blockdims_positive n c : 1 <= c -> 1 <= n -> Forall (fun k => 1 <= k <= c) (blockdims n c).
Proof.
  intros Hc Hn. unfold blockdims. destruct (Nat.eqb_spec n 0) as [->|_]; [lia|].
  cbv zeta. set (m := Nat.min c n). assert (Hm : 1 <= m <= c) by (unfold m; lia).
  apply Forall_app. split.
  - apply Forall_forall. intros k Hk. apply repeat_spec in Hk. lia.
  - destruct (Nat.eqb_spec (n mod m) 0); constructor; [|constructor].
    pose proof (Nat.mod_upper_bound n m). lia.
Qed.

Lemma map2_length {A B C} (f : A -> B -> C) l : forall m, length (map2 f l m) = Nat.min (length l) (length m).
Proof. induction l; destruct m; simpl; auto. Qed.
Lemma map2_nth {A B C} (f : A -> B -> C) : forall l m i a b c, i < length l -> i < length m ->
  nth i (map2 f l m) c = f (nth i l a) (nth i m b).
Proof.
  induction l; destruct m; simpl; intros i a0 b0 c0 H1 H2; try lia.
  destruct i; [reflexivity|]. apply IHl; lia.
Qed.

Lemma normalize_chunks_nth auto specs sh cs i : normalize_chunks auto specs sh = Some cs ->
  length cs = length specs /\
  (i < length specs ->
   nth i cs [] = match nth i specs Whole with
                 | Auto => blockdims (nth i sh 0) (auto specs sh i)
                 | Size c => blockdims (nth i sh 0) c
                 | Whole => [nth i sh 0]
                 end).
Proof.
  unfold normalize_chunks. destruct existsb; [discriminate|]. intros E. injection E as <-. split.
  - rewrite map2_length, seq_length. lia.
  - intros Hi. rewrite map2_nth with (a := 0) (b := Whole) by (rewrite ?seq_length; lia).
    rewrite seq_nth by lia. reflexivity.
Qed.
Lemma normalize_chunks_sizes auto specs sh cs i : normalize_chunks auto specs sh = Some cs ->
  nth i specs Whole <> Size 0.
Proof.
  unfold normalize_chunks. destruct existsb eqn:E; [discriminate|]. intros _ H.
  assert (i < length specs). { destruct (lt_dec i (length specs)); auto. rewrite nth_overflow in H by lia. discriminate. }
  assert (existsb (fun s => match s with Size 0 => true | _ => false end) specs = true).
  { apply existsb_exists. exists (Size 0). split; [rewrite <- H; now apply nth_In|reflexivity]. }
  congruence.
Qed.

Definition auto_ok (auto : list spec -> list nat -> nat -> nat) : Prop := forall specs sh i, 1 <= auto specs sh i.

Lemma normalize_chunks_axis auto specs sh cs i : auto_ok auto -> normalize_chunks auto specs sh = Some cs ->
  i < length specs -> axis_length (nth i cs []) = nth i sh 0.
Proof.
  intros Ha E Hi. destruct (normalize_chunks_nth auto specs sh cs i E) as [_ H]. rewrite H by auto.
  pose proof (normalize_chunks_sizes auto specs sh cs i E) as Hz.
  destruct (nth i specs Whole) as [|c|].
  - apply blockdims_length, Ha.
  - apply blockdims_length. destruct c; [congruence|lia].
  - simpl. lia.
Qed.

Lemma normalize_chunks_shape auto specs sh cs : auto_ok auto -> normalize_chunks auto specs sh = Some cs ->
  length specs = length sh -> map axis_length cs = sh.
Proof.
  intros Ha E Hl. apply nth_ext with (d := axis_length []) (d' := 0).
  - rewrite map_length. destruct (normalize_chunks_nth auto specs sh cs 0 E). lia.
  - intros n Hn. rewrite map_length in Hn. rewrite map_nth.
    destruct (normalize_chunks_nth auto specs sh cs 0 E) as [Hc _].
    apply (normalize_chunks_axis auto specs); auto; lia.
Qed.

Definition reduce_nav (size : list nat) (chunk_bytes : nat) : list spec :=
  match size with
  | [a; b; sy; sx] =>
    let k := argmin2 a b in
    if (nth k [a; b] 0 * (sy * sx) * 4 <? chunk_bytes) then
      (if k =? 0 then [Whole; Auto] else [Auto; Whole])
    else repeat Auto (length size - 2)
  | _ => repeat Auto (length size - 2)
  end.
Lemma reduce_nav_length size chunk_bytes : length (reduce_nav size chunk_bytes) = length size - 2.
Proof.
  unfold reduce_nav. destruct size as [|a [|b [|sy [|sx [|? ?]]]]]; rewrite ?repeat_length; try reflexivity.
  destruct (_ <? _); [|reflexivity]. now destruct (_ =? 0).
Qed.
Lemma reduce_chunks_eq auto {A} (d : darray A) chunk_bytes : 2 <= length (chunks d) -> 
  reduce_chunks auto d chunk_bytes =
  let specs := reduce_nav (chunksize d) chunk_bytes ++ [Whole; Whole] in
  match normalize_chunks auto specs (shape d) with
  | None => None
  | Some new => Some (map2 (fun s on => match s with Whole => fst on | _ => snd on end)
                           specs (combine (chunks d) new))
  end.
Proof. intros _. reflexivity. Qed.

Lemma reduce_chunks_axis auto {A} (d : darray A) chunk_bytes cs : auto_ok auto -> 2 <= length (chunks d) ->
  reduce_chunks auto d chunk_bytes = Some cs ->
  map axis_length cs = shape d /\
  forall i, length (chunks d) - 2 <= i < length (chunks d) -> nth i cs [] = nth i (chunks d) [].
Proof.
  intros Ha Hl. rewrite reduce_chunks_eq by auto. cbv zeta.
  set (nav := reduce_nav (chunksize d) chunk_bytes).
  assert (Hnav : length nav = length (chunks d) - 2).
  { unfold nav. rewrite reduce_nav_length. unfold chunksize. now rewrite map_length. }
  clearbody nav. destruct (normalize_chunks auto (nav ++ [Whole; Whole]) (shape d)) as [new|] eqn:E; [|discriminate].
  intros H. injection H as <-.
  assert (Hs : length (nav ++ [Whole; Whole]) = length (chunks d)) by (rewrite app_length; simpl; lia).
  assert (Hsh : length (nav ++ [Whole; Whole]) = length (shape d)) by (unfold shape; rewrite map_length; lia).
  pose proof (normalize_chunks_shape _ _ _ _ Ha E Hsh) as Hn.
  assert (Hlen : length new = length (chunks d)).
  { destruct (normalize_chunks_nth _ _ _ _ 0 E). lia. }
  assert (Hnth : forall i, i < length (chunks d) ->
     nth i (map2 (fun s on => match s with Whole => fst on | _ => snd on end) (nav ++ [Whole; Whole]) (combine (chunks d) new)) []
     = match nth i (nav ++ [Whole; Whole]) Whole with Whole => nth i (chunks d) [] | _ => nth i new [] end).
  { intros i Hi. rewrite map2_nth with (a := Whole) (b := ([], [])).
    - rewrite combine_nth by lia. reflexivity.
    - lia.
    - rewrite combine_length. lia. }
  split.
  - apply nth_ext with (d := axis_length []) (d' := 0).
    + unfold shape. rewrite !map_length, map2_length, combine_length. lia.
    + intros i Hi. rewrite map_length, map2_length, combine_length in Hi. rewrite map_nth, Hnth by lia.
      assert (axis_length (nth i (chunks d) []) = nth i (shape d) 0).
      { unfold shape. change 0 with (axis_length []). now rewrite map_nth. }
      assert (axis_length (nth i new []) = nth i (shape d) 0).
      { rewrite <- Hn. change 0 with (axis_length []). now rewrite map_nth. }
      destruct (nth i (nav ++ [Whole; Whole]) Whole); auto.
  - intros i Hi. rewrite Hnth by lia.
    rewrite app_nth2 by lia. rewrite Hnav. remember (i - (length (chunks d) - 2)) as j.
    assert (Hj : j = 0 \/ j = 1) by lia. destruct Hj as [-> | ->]; reflexivity.
Qed.

Lemma map2_app {A B C} (f : A -> B -> C) : forall l m l' m', length l = length m ->
  map2 f (l ++ l') (m ++ m') = map2 f l m ++ map2 f l' m'.
Proof. induction l; destruct m; simpl; intros l' m' H; try discriminate; auto. f_equal. apply IHl. lia. Qed.
Lemma map2_map_r {A B C D} (f : A -> C -> D) (g : B -> C) : forall l m, map2 f l (map g m) = map2 (fun a b => f a (g b)) l m.
Proof. induction l; destruct m; simpl; auto. now f_equal. Qed.
Lemma map_map2 {A B C D} (h : C -> D) (f : A -> B -> C) : forall l m, map h (map2 f l m) = map2 (fun a b => h (f a b)) l m.
Proof. induction l; destruct m; simpl; auto. now f_equal. Qed.
Lemma Forall2_len {A B} (P : A -> B -> Prop) l m : Forall2 P l m -> length l = length m.
Proof. induction 1; simpl; auto. Qed.
