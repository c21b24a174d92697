(** Chunking of data: property C21. *)
From Coq Require Import List Arith ZArith Bool Lia.
From Verif Require Import Model.Chunking Spec.Chunks Proofs.ChunkingProofs.
Import ListNotations.

(** ** get_chunking *)

(** For every data shape, number of navigation and signal axes, chunk shape, byte limit and data type
    (the last two enter through [auto], any choice of sizes of at least one): each axis is split into
    chunks that hold each index exactly once, and signal axes are one chunk. *)
Theorem C21_chunks_cover_each_axis auto sh nav_dim sig_dim chunk_shape cs :
  (forall specs s i, 1 <= auto specs s i) -> length sh = nav_dim + sig_dim ->
  get_chunking auto sh nav_dim sig_dim chunk_shape = Some cs ->
  length cs = length sh /\ forall i, i < length sh ->
    splits (nth i sh 0) (nth i cs []) /\ (nav_dim <= i -> nth i cs [] = [nth i sh 0]).
Proof.
  intros Ha Hl E. unfold get_chunking in E. set (nav := match chunk_shape with None => Auto | Some c => Size c end) in *.
  assert (Hs : length (repeat nav nav_dim ++ repeat Whole sig_dim) = length sh)
    by (rewrite app_length, !repeat_length; lia).
  split; [destruct (normalize_chunks_nth _ _ _ _ 0 E); lia|].
  intros i Hi. split.
  - rewrite <- (normalize_chunks_axis _ _ _ _ i Ha E) by lia. apply splits_total.
  - intros Hn. destruct (normalize_chunks_nth _ _ _ _ i E) as [_ H]. rewrite H by lia.
    rewrite app_nth2; rewrite repeat_length; [|lia]. now rewrite nth_repeat.
Qed.

(** chunk_shape is respected: along a navigation axis every chunk has this size (or that of the axis,
    if smaller), except the last, which is not empty and not larger. *)
Theorem C21_chunk_shape_respected auto sh nav_dim sig_dim c cs i :
  length sh = nav_dim + sig_dim -> get_chunking auto sh nav_dim sig_dim (Some c) = Some cs ->
  i < nav_dim -> 1 <= nth i sh 0 ->
  exists m l, nth i cs [] = repeat (Nat.min c (nth i sh 0)) m ++ [l] /\ 1 <= l <= Nat.min c (nth i sh 0).
Proof.
  intros Hl E Hi Hn. unfold get_chunking in E.
  destruct (normalize_chunks_nth _ _ _ _ i E) as [_ H].
  pose proof (normalize_chunks_sizes _ _ _ _ i E) as Hz.
  rewrite app_length, !repeat_length in H. specialize (H ltac:(lia)).
  rewrite app_nth1 in H, Hz by (rewrite repeat_length; lia).
  rewrite nth_indep with (d' := Size c) in H, Hz by (rewrite repeat_length; lia).
  rewrite nth_repeat in H, Hz. rewrite H. clear H.
  remember (nth i sh 0) as n eqn:En. clear En. assert (c <> 0) by congruence.
  unfold blockdims. destruct (Nat.eqb_spec n 0); [lia|]. cbv zeta.
  remember (Nat.min c n) as m eqn:Em. assert (Hm : 1 <= m <= n) by lia.
  destruct (Nat.eqb_spec (n mod m) 0) as [H0|H0].
  - assert (1 <= n / m) by (apply Nat.div_le_lower_bound; lia).
    exists (n / m - 1), m. split; [|lia]. rewrite app_nil_r.
    replace (n / m) with (S (n / m - 1)) at 1 by lia. apply repeat_cons.
  - exists (n / m), (n mod m). split; [reflexivity|]. pose proof (Nat.mod_upper_bound n m). lia.
Qed.

(** It fails only for a chunk shape of 0. *)
Theorem C21_chunking_succeeds auto sh nav_dim sig_dim chunk_shape :
  chunk_shape <> Some 0 -> exists cs, get_chunking auto sh nav_dim sig_dim chunk_shape = Some cs.
Proof.
  intros H. unfold get_chunking, normalize_chunks.
  destruct existsb eqn:E; [|eauto]. apply existsb_exists in E. destruct E as (s & Hs & Hz).
  apply in_app_iff in Hs. destruct Hs as [Hs|Hs]; apply repeat_spec in Hs; subst s; [|discriminate].
  destruct chunk_shape as [[|c]|]; congruence.
Qed.

Example chunking_example : get_chunking (fun _ _ _ => 2) [5; 4; 60; 60] 2 2 None = Some [[2; 2; 1]; [2; 2]; [60]; [60]].
Proof. reflexivity. Qed.
Example chunking_example_shape : get_chunking (fun _ _ _ => 1) [5; 4; 60; 60] 2 2 (Some 3) = Some [[3; 2]; [3; 1]; [60]; [60]].
Proof. reflexivity. Qed.

(** ** Data are never changed by chunking *)

(** The dask array made from the data of a signal, with any chunk shape, byte limit and rechunking,
    has the same values as these data. *)
Theorem C21_chunking_keeps_data auto A (s : sdata A) chunk_shape do_rechunk chunk_bytes d :
  (forall specs sh i, 1 <= auto specs sh i) -> 2 <= length (data_shape s) ->
  get_dask_array auto s chunk_shape do_rechunk chunk_bytes = Some d ->
  shape d = data_shape s /\ forall i, within_shape (data_shape s) i -> compute d i = value s i.
Proof.
  intros Ha Hl. destruct s as [sh data|d0]; simpl in *.
  - destruct (get_chunking auto sh (length sh - 2) 2 chunk_shape) as [cs|] eqn:E; [|discriminate].
    intros H. injection H as <-. unfold get_chunking in E.
    assert (Hs : map axis_length cs = sh).
    { eapply normalize_chunks_shape; eauto. rewrite app_length, !repeat_length. lia. }
    split; [exact Hs|]. intros i Hi. apply compute_from_array. now rewrite Hs.
  - unfold shape in Hl. rewrite map_length in Hl. destruct do_rechunk.
    + destruct (reduce_chunks auto d0 chunk_bytes) as [cs|] eqn:E; [|discriminate].
      intros H. injection H as <-. destruct (reduce_chunks_axis auto d0 chunk_bytes cs Ha Hl E) as [Hs _].
      split; [exact Hs|]. intros i Hi. apply compute_from_array. now rewrite Hs.
    + intros H. injection H as <-. auto.
Qed.

(** ** Operations on patterns do not depend on the chunks *)

(** A function of one pattern (its shape and its values), applied to each pattern in a block. *)
Definition each_pattern {A B} (g : list nat -> (index -> A) -> index -> B) : list nat -> (index -> A) -> index -> B :=
  fun sh b i => let n := length i - 2 in g (skipn (length sh - 2) sh) (fun s => b (firstn n i ++ s)) (skipn n i).

Lemma compute_each_pattern {A B} (g : list nat -> (index -> A) -> index -> B) data navcs sy sx nav sig :
  (forall p q s, within_shape [sy; sx] s -> (forall i, within_shape [sy; sx] i -> p i = q i) -> g [sy; sx] p s = g [sy; sx] q s) ->
  within_shape (map axis_length navcs) nav -> within_shape [sy; sx] sig ->
  compute (map_blocks (each_pattern g) (from_array data (navcs ++ [[sy]; [sx]]))) (nav ++ sig)
  = g [sy; sx] (fun s => data (nav ++ s)) sig.
Proof.
  intros Hg Hnav Hsig.
  assert (Hlen : length navcs = length nav) by (unfold within_shape in Hnav; apply Forall2_len in Hnav; now rewrite map_length in Hnav).
  assert (Hone : forall n r, r < n -> block_of [n] r = (0, r)).
  { intros n r Hr. simpl. now rewrite (proj2 (Nat.ltb_lt r n)). }
  inversion Hsig as [|? r ? l Hr H2]; subst. inversion H2 as [|? c ? l' Hc H3]; subst. inversion H3; subst.
  unfold compute, map_blocks, from_array, block_shape. cbn [chunks block].
  rewrite map2_app by auto. cbn [map2]. rewrite !Hone by auto. rewrite !map_app. cbn [map fst snd].
  set (ks := map fst (map2 block_of navcs nav)). set (os := map snd (map2 block_of navcs nav)).
  assert (Hks : length ks = length navcs) by (unfold ks; rewrite map_length, map2_length; lia).
  assert (Hos : length os = length navcs) by (unfold os; rewrite map_length, map2_length; lia).
  rewrite !map2_app by lia. cbn [map2 nth]. unfold each_pattern.
  rewrite !app_length, map2_length. cbn [length].
  replace (length os + 2 - 2) with (length os) by lia.
  replace (Nat.min (length navcs) (length ks) + 2 - 2) with (length (map2 (fun cs k => nth k cs 0) navcs ks))
    by (rewrite map2_length; lia).
  rewrite skipn_app, Nat.sub_diag, skipn_all. cbn [app skipn].
  rewrite skipn_app, Nat.sub_diag, skipn_all. cbn [app skipn].
  rewrite firstn_app, Nat.sub_diag, firstn_all. cbn [firstn]. rewrite app_nil_r.
  apply Hg; [exact Hsig|]. intros i Hi. f_equal.
  inversion Hi as [|? r' ? l Hr' H2']; subst. inversion H2' as [|? c' ? l' Hc' H3']; subst. inversion H3'; subst.
  rewrite map2_app by (rewrite map2_length; lia). cbn [map2]. unfold start at 2 3. cbn [firstn axis_length fold_right Nat.add].
  f_equal. unfold ks, os. clear - Hnav. revert nav Hnav.
  induction navcs as [|c navcs IH]; intros nav H; inversion H; subst; simpl; [reflexivity|].
  f_equal; [|now apply IH]. destruct (block_of_spec c y) as (E & _); auto.
Qed.

(** For data in memory, a function of single patterns mapped over the chunks gives for each pattern
    its value for this pattern, whatever the chunk shape and byte limit.  (The function only has to
    depend on no more than the values of the pattern.) *)
Theorem C21_patternwise_result_independent_of_chunks auto A B (g : list nat -> (index -> A) -> index -> B)
    nav_shape sy sx data chunk_shape do_rechunk chunk_bytes d nav sig :
  (forall specs sh i, 1 <= auto specs sh i) ->
  (forall p q s, within_shape [sy; sx] s -> (forall i, within_shape [sy; sx] i -> p i = q i) -> g [sy; sx] p s = g [sy; sx] q s) ->
  get_dask_array auto (InMemory (nav_shape ++ [sy; sx]) data) chunk_shape do_rechunk chunk_bytes = Some d ->
  within_shape nav_shape nav -> within_shape [sy; sx] sig ->
  compute (map_blocks (each_pattern g) d) (nav ++ sig) = g [sy; sx] (fun s => data (nav ++ s)) sig.
Proof.
  intros Ha Hg E Hnav Hsig. simpl in E. rewrite app_length in E. cbn [length] in E.
  replace (length nav_shape + 2 - 2) with (length nav_shape) in E by lia.
  destruct (get_chunking auto (nav_shape ++ [sy; sx]) (length nav_shape) 2 chunk_shape) as [cs|] eqn:Ec; [|discriminate].
  injection E as <-.
  destruct (C21_chunks_cover_each_axis _ _ _ _ _ _ Ha ltac:(rewrite app_length; reflexivity) Ec) as [Hl H].
  rewrite app_length in *. cbn [length] in *.
  assert (Hs : map axis_length cs = nav_shape ++ [sy; sx]).
  { eapply normalize_chunks_shape; eauto. rewrite !app_length, !repeat_length. reflexivity. }
  assert (Hcs : cs = firstn (length nav_shape) cs ++ [[sy]; [sx]]).
  { rewrite <- (firstn_skipn (length nav_shape) cs) at 1. f_equal.
    destruct (H (length nav_shape) ltac:(lia)) as [_ H1]. specialize (H1 ltac:(lia)).
    destruct (H (S (length nav_shape)) ltac:(lia)) as [_ H2]. specialize (H2 ltac:(lia)).
    rewrite app_nth2, Nat.sub_diag in H1 by lia.
    rewrite app_nth2 in H2 by lia. replace (S (length nav_shape) - length nav_shape) with 1 in H2 by lia. cbn [nth] in H1, H2.
    pose proof (skipn_length (length nav_shape) cs) as Hk. 
    assert (N : forall j, nth j (skipn (length nav_shape) cs) [] = nth (length nav_shape + j) cs []).
    { intros j. rewrite <- (firstn_skipn (length nav_shape) cs) at 2. rewrite app_nth2; rewrite firstn_length; [f_equal; lia|lia]. }
    destruct (skipn (length nav_shape) cs) as [|a [|b [|? ?]]]; simpl in Hk; try lia.
    pose proof (N 0) as N0. pose proof (N 1) as N1. cbn [nth] in N0, N1. rewrite Nat.add_0_r in N0.
    replace (length nav_shape + 1) with (S (length nav_shape)) in N1 by lia. congruence. }
  rewrite Hcs. apply compute_each_pattern; auto.
  rewrite <- firstn_map, Hs, firstn_app, Nat.sub_diag, firstn_all. simpl. now rewrite app_nil_r.
Qed.

(** Example: subtracting from each pattern its first value, on a map of 3 patterns of one row. *)
Example patternwise_example :
  let g := fun (sh : list nat) (p : index -> nat) i => p i - p [0; 0] in
  (forall p q s, within_shape [1; 2] s -> (forall i, within_shape [1; 2] i -> p i = q i) -> g [1; 2] p s = g [1; 2] q s) /\
  exists d, get_dask_array (fun _ _ _ => 2) (InMemory [3; 1; 2] (fun i => nth 0 i 0 + 5 * nth 2 i 0)) None true 10 = Some d
   /\ chunks d = [[2; 1]; [1]; [2]] /\ compute (map_blocks (each_pattern g) d) [2; 0; 1] = 5.
Proof.
  split.
  - intros p q s Hs H. rewrite (H s) by auto. rewrite (H [0; 0]); [reflexivity|].
    repeat (constructor; [lia|]). constructor.
  - eexists. split; [reflexivity|]. split; reflexivity.
Qed.

(** ** Lazy signals *)

(** If the data of a lazy signal are already split along signal axes, they stay so, with the same
    chunks, whether or not they are rechunked. *)
Theorem C21_lazy_signal_axes_keep_chunks auto A (d0 : darray A) chunk_shape do_rechunk chunk_bytes d i :
  (forall specs sh j, 1 <= auto specs sh j) -> 2 <= length (chunks d0) ->
  get_dask_array auto (Lazy d0) chunk_shape do_rechunk chunk_bytes = Some d ->
  length (chunks d0) - 2 <= i < length (chunks d0) -> nth i (chunks d) [] = nth i (chunks d0) [].
Proof.
  intros Ha Hl E Hi. simpl in E. destruct do_rechunk.
  - destruct (reduce_chunks auto d0 chunk_bytes) as [cs|] eqn:Er; [|discriminate]. injection E as <-.
    apply (reduce_chunks_axis auto d0 chunk_bytes cs Ha Hl Er). auto.
  - injection E as <-. reflexivity.
Qed.

(** Rechunking a lazy signal with two navigation axes keeps the chunks of the navigation axis with the smaller largest
    chunk (the first if they are equal) if [chunk_bytes] allows for that many patterns of four bytes per pixel; the other
    axis, or both if it does not, gets chunks no greater than dask's choice. *)
Theorem C21_rechunk_navigation_axes auto A (d0 : darray A) c0 c1 cy cx chunk_shape chunk_bytes m d :
  (forall specs sh j, 1 <= auto specs sh j <= m) -> chunks d0 = [c0; c1; cy; cx] ->
  get_dask_array auto (Lazy d0) chunk_shape true chunk_bytes = Some d ->
  let a := list_max c0 in let b := list_max c1 in let pattern := list_max cy * list_max cx in
  (a <= b -> a * pattern * 4 < chunk_bytes -> nth 0 (chunks d) [] = c0 /\ Forall (fun k => k <= m) (nth 1 (chunks d) [])) /\
  (b < a -> b * pattern * 4 < chunk_bytes -> nth 1 (chunks d) [] = c1 /\ Forall (fun k => k <= m) (nth 0 (chunks d) [])) /\
  (chunk_bytes <= Nat.min a b * pattern * 4 -> Forall (fun k => k <= m) (nth 0 (chunks d) []) /\ Forall (fun k => k <= m) (nth 1 (chunks d) [])).
Proof.
  intros Ha Hc E a b pattern. cbn [get_dask_array] in E. unfold reduce_chunks in E.
  assert (Z : chunksize d0 = [a; b; list_max cy; list_max cx]) by (unfold chunksize; now rewrite Hc).
  assert (B : forall n specs sh j, Forall (fun k => k <= m) (blockdims n (auto specs sh j))).
  { intros n specs sh j. pose proof (Ha specs sh j) as Hj. destruct n as [|n]; [repeat constructor; lia|].
    eapply Forall_impl; [|apply blockdims_positive; lia]. intros k Hk; cbn beta in Hk; lia. }
  rewrite Z, Hc in E. cbn [length Nat.sub repeat] in E. unfold argmin2 in E.
  destruct (Nat.ltb_spec b a) as [L|L]; cbn [nth Nat.eqb] in E;
    (match type of E with context[?u <? ?v] => destruct (Nat.ltb_spec u v) as [Q|Q] end; cbn in E; injection E as <-; cbn [nth chunks rechunk from_array]; fold pattern in Q).
  - split; [intros; lia|]. split; [intros _ _; split; [reflexivity|apply B]|]. intros Q'. exfalso. replace (Nat.min a b) with b in Q' by lia. unfold pattern in Q'. lia.
  - split; [intros; lia|]. split; [intros _ Q'; exfalso; unfold pattern in Q'; lia|]. intros _. split; apply B.
  - split; [intros _ _; split; [reflexivity|apply B]|]. split; [intros; lia|]. intros Q'. exfalso. replace (Nat.min a b) with a in Q' by lia. unfold pattern in Q'. lia.
  - split; [intros _ Q'; exfalso; unfold pattern in Q'; lia|]. split; [intros; lia|]. intros _. split; apply B.
Qed.
Example C21_rechunk_case : let d0 := from_array (fun i => nth 0 i 0) [[3; 1]; [5; 1]; [2]; [2]] in
  option_map (@chunks nat) (get_dask_array (fun _ _ _ => 2) (Lazy d0) None true 49) = Some [[3; 1]; [2; 2; 2]; [2]; [2]] /\
  option_map (@chunks nat) (get_dask_array (fun _ _ _ => 2) (Lazy d0) None true 48) = Some [[2; 2]; [2; 2; 2]; [2]; [2]].
Proof. split; reflexivity. Qed.

(** So for lazy signals the result of an operation on single patterns does depend on the chunks: for
    every such choice [auto], there is a lazy signal and a function of single patterns for which it
    differs from the same with the data in memory. *)
Theorem C21_patternwise_result_lazy_refuted : forall auto, (forall specs sh i, 1 <= auto specs sh i) ->
  exists (d0 : darray nat) (g : list nat -> (index -> nat) -> index -> nat) chunk_bytes d nav sig,
    (forall p q s, within_shape [1; 2] s -> (forall i, within_shape [1; 2] i -> p i = q i) -> g [1; 2] p s = g [1; 2] q s)
    /\ shape d0 = [1; 1; 2] /\ get_dask_array auto (Lazy d0) None true chunk_bytes = Some d
    /\ within_shape [1] nav /\ within_shape [1; 2] sig
    /\ compute (map_blocks (each_pattern g) d) (nav ++ sig) <> g [1; 2] (fun s => compute d0 (nav ++ s)) sig.
Proof.
  intros auto Ha. exists (from_array (fun i => nth 2 i 0) [[1]; [1]; [1; 1]]).
  exists (fun sh p i => p [0; 0]), 10. eexists. exists [0], [0; 1].
  split; [|split; [reflexivity|split; [reflexivity|]]].
  - intros p q s _ H. apply H. repeat (constructor; [lia|]). constructor.
  - split; [repeat (constructor; [lia|]); constructor|]. split; [repeat (constructor; [lia|]); constructor|].
    remember (auto [Auto; Whole; Whole] [1; 1; 2] 0) as a. assert (H : 1 <= a) by (subst; apply Ha).
    assert (E : blockdims 1 a = [1]).
    { unfold blockdims. replace (Nat.min a 1) with 1 by lia. reflexivity. }
    cbn. rewrite <- ?Heqa.  unfold shape; cbn. rewrite <- ?Heqa. rewrite ?E. cbn. discriminate.
Qed.

Print Assumptions C21_chunking_keeps_data.
Print Assumptions C21_patternwise_result_independent_of_chunks.
