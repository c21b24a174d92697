From Coq Require Import List Arith ZArith Reals Bool Lia.
From Verif Require Import Model.NdArray Model.Detector Model.CoordinateConversion Proofs.ListLemmas Spec.CoordinateSpec.
Import ListNotations.
Local Open Scope nat_scope.

(** ** Shapes *)
Lemma shape_eqb_eq s : forall t, shape_eqb s t = true <-> s = t.
Proof.
  induction s as [|a s IH]; intros [|b t]; cbn [shape_eqb]; try (split; congruence).
  rewrite andb_true_iff, Nat.eqb_eq, IH. split; [intros []; congruence|intros E; injection E; auto].
Qed.
Lemma within_length s i : within s i -> length i = length s.
Proof. induction 1; cbn; congruence. Qed.
Lemma within_app s t i j : within s i -> within t j -> within (s ++ t) (i ++ j).
Proof. induction 1; intros; cbn; [assumption|constructor; auto]. Qed.
Lemma within_split s t l : within (s ++ t) l -> exists i j, l = i ++ j /\ within s i /\ within t j.
Proof.
  revert l. induction s as [|n s IH]; cbn [app]; intros l H.
  - exists [], l. split; [reflexivity|split; [constructor|assumption]].
  - inversion H as [|n' s' k i Hk Hi]; subst. destruct (IH _ Hi) as (a & b & -> & A & B). exists (k :: a), b.
    split; [reflexivity|split; [constructor; assumption|assumption]].
Qed.
Lemma join_same s : join s s = Some s.
Proof. induction s as [|a s IH]; cbn [join]; [reflexivity|]. rewrite IH, Nat.eqb_refl. reflexivity. Qed.
Lemma join_ones_l s : join (repeat 1 (length s)) s = Some s.
Proof.
  induction s as [|a s IH]; cbn [join repeat length]; [reflexivity|]. rewrite IH. destruct (1 =? a) eqn:E; [|reflexivity].
  apply Nat.eqb_eq in E. congruence.
Qed.
Lemma join_ones_r s : join s (repeat 1 (length s)) = Some s.
Proof.
  induction s as [|a s IH]; cbn [join repeat length]; [reflexivity|]. rewrite IH. destruct (a =? 1) eqn:E; reflexivity.
Qed.
Lemma join_app s : forall t r s' t' r', join s t = Some r -> join s' t' = Some r' -> join (s ++ s') (t ++ t') = Some (r ++ r').
Proof.
  induction s as [|a s IH]; intros [|b t] r s' t' r' H H'; cbn [join app] in *; try discriminate.
  - injection H as <-. exact H'.
  - destruct (join s t) as [q|] eqn:J; [|discriminate]. rewrite (IH _ _ _ _ _ J H').
    destruct (a =? b); [injection H as <-; reflexivity|]. destruct (a =? 1); [injection H as <-; reflexivity|].
    destruct (b =? 1); [injection H as <-; reflexivity|discriminate].
Qed.
Lemma pad_id n s : length s = n -> pad n s = s.
Proof. intros <-. unfold pad. rewrite Nat.sub_diag. reflexivity. Qed.
Lemma broadcast_same_length s t : length s = length t -> broadcast_shapes s t = join s t.
Proof. intros E. unfold broadcast_shapes. rewrite E, Nat.max_id, !pad_id by congruence. reflexivity. Qed.
Lemma broadcast_refl s : broadcast_shapes s s = Some s.
Proof. rewrite broadcast_same_length by reflexivity. apply join_same. Qed.
Lemma broadcast_nil s : broadcast_shapes [] s = Some s.
Proof.
  unfold broadcast_shapes. cbn [length Nat.max]. rewrite (pad_id _ s) by reflexivity. unfold pad. cbn [length].
  rewrite Nat.sub_0_r, app_nil_r. apply join_ones_l.
Qed.
Lemma broadcast_nil_r s : broadcast_shapes s [] = Some s.
Proof.
  unfold broadcast_shapes. cbn [length]. rewrite Nat.max_0_r, (pad_id _ s) by reflexivity. unfold pad. cbn [length].
  rewrite Nat.sub_0_r, app_nil_r. apply join_ones_r.
Qed.
Lemma broadcast_shared s c : broadcast_shapes (s ++ repeat 1 (length c)) c = Some (s ++ c).
Proof.
  unfold broadcast_shapes. rewrite app_length, repeat_length, Nat.max_l by lia. rewrite pad_id by (rewrite app_length, repeat_length; reflexivity).
  unfold pad. replace (length s + length c - length c) with (length s) by lia.
  apply join_app; [apply join_ones_r|apply join_ones_l].
Qed.
Lemma broadcast_factors s c : broadcast_shapes (s ++ c) (s ++ repeat 1 (length c)) = Some (s ++ c).
Proof.
  rewrite broadcast_same_length by (rewrite !app_length, repeat_length; reflexivity). apply join_app; [apply join_same|apply join_ones_r].
Qed.
Lemma broadcast_each s c : broadcast_shapes (s ++ repeat 1 (length c)) (s ++ c) = Some (s ++ c).
Proof.
  rewrite broadcast_same_length by (rewrite !app_length, repeat_length; reflexivity). apply join_app; [apply join_same|apply join_ones_l].
Qed.

(** ** Elements *)
Lemma source_self s i : within s i -> source s i = i.
Proof.
  intros W. unfold source. rewrite (within_length _ _ W), Nat.sub_diag. cbn [skipn].
  induction W as [|n s k i Hk _ IH]; [reflexivity|]. cbn [combine map fst snd]. rewrite IH. destruct (n =? 1) eqn:E; [|reflexivity].
  apply Nat.eqb_eq in E. f_equal. lia.
Qed.
Lemma source_suffix s i j : length j = length s -> source s (i ++ j) = source s j.
Proof.
  intros E. unfold source. rewrite app_length, E, Nat.sub_diag. replace (length i + length s - length s) with (length i) by lia.
  rewrite skipn_app, skipn_all, Nat.sub_diag. reflexivity.
Qed.
Lemma combine_app {A B} (s : list A) : forall (i : list B) t j, length s = length i -> combine (s ++ t) (i ++ j) = combine s i ++ combine t j.
Proof. induction s as [|a s IH]; intros [|b i] t j E; cbn in *; try discriminate; [reflexivity|]. rewrite IH by congruence. reflexivity. Qed.
Lemma source_ones s i j : within s i -> firstn (length s) (source (s ++ repeat 1 (length j)) (i ++ j)) = i.
Proof.
  intros W. pose proof (within_length _ _ W) as L. unfold source. rewrite !app_length, repeat_length, L, Nat.sub_diag. cbn [skipn].
  rewrite combine_app, map_app by congruence.
  assert (E : map (fun p : nat * nat => if fst p =? 1 then 0 else snd p) (combine s i) = i).
  { pose proof (source_self s i W) as E. unfold source in E. rewrite L, Nat.sub_diag in E. exact E. }
  rewrite E, <- L. rewrite firstn_app, Nat.sub_diag, firstn_all, firstn_O, app_nil_r. reflexivity.
Qed.
Lemma removelast_snoc {A} (l : list A) x : removelast (l ++ [x]) = l.
Proof. apply removelast_last. Qed.

(** ** One conversion *)
Local Open Scope R_scope.
Lemma convert_points_ok bs cs sh coords mx cx my cy : shape coords = points_shape cs ->
  shape mx = bs -> shape cx = bs -> shape my = bs -> shape cy = bs ->
  broadcast_shapes bs cs = Some sh -> broadcast_shapes sh bs = Some sh ->
  exists r, convert_points coords (points_shape sh) mx cx my cy = Some r /\ shape r = points_shape sh /\
    forall i, within sh i -> point r i =
      (at_ my (source bs i) * at_ coords (source cs i ++ [0%nat]) + at_ cy (source bs i),
       at_ mx (source bs i) * at_ coords (source cs i ++ [1%nat]) + at_ cx (source bs i)).
Proof.
  intros Ec E1 E2 E3 E4 B1 B2. unfold convert_points, op, last_axis. cbn [shape].
  rewrite Ec. unfold points_shape. rewrite !removelast_snoc. rewrite E1, E3, B1. cbn [option_map shape]. rewrite E2, E4, B2.
  cbn [option_map]. unfold stored. cbn [shape]. rewrite broadcast_refl. rewrite (proj2 (shape_eqb_eq sh sh) eq_refl).
  eexists. split; [reflexivity|]. split; [reflexivity|]. intros i W. unfold point. cbn [at_]. rewrite !last_last, !removelast_snoc. cbn [Nat.eqb].
  unfold get. cbn [shape at_]. rewrite !(source_self sh i W), E1, E2, E3, E4. reflexivity.
Qed.

Definition conv (f : factors) (yx : R * R) : R * R := apply_factors f yx.

Lemma expand_shape {A} (a : arr A) (s c : list nat) : shape a = s -> shape (expand_dims a (length (s ++ c))) = s ++ repeat 1%nat (length c).
Proof. intros <-. unfold expand_dims, ndim. cbn [shape]. rewrite app_length. f_equal. f_equal. lia. Qed.
Lemma expand_at {A} (a : arr A) (n : nat) i : at_ (expand_dims a n) i = at_ a (firstn (length (shape a)) i).
Proof. reflexivity. Qed.

(** Factors of shape s, the same points for each. *)
Lemma shared_ok s cs coords (mx cx my cy : arr R) : shape coords = points_shape cs ->
  shape mx = s -> shape cx = s -> shape my = s -> shape cy = s ->
  let n := length (s ++ cs) in
  exists r, convert_points coords (s ++ points_shape cs) (expand_dims mx n) (expand_dims cx n) (expand_dims my n) (expand_dims cy n) = Some r
    /\ shape r = s ++ points_shape cs /\
    forall i j, within s i -> within cs j -> point r (i ++ j) = conv (Factors (at_ mx i) (at_ cx i) (at_ my i) (at_ cy i)) (point coords j).
Proof.
  intros Ec E1 E2 E3 E4 n. subst n.
  destruct (convert_points_ok (s ++ repeat 1%nat (length cs)) cs (s ++ cs) coords
    (expand_dims mx (length (s ++ cs))) (expand_dims cx (length (s ++ cs))) (expand_dims my (length (s ++ cs))) (expand_dims cy (length (s ++ cs))))
    as (r & C & S & P); try assumption.
  1-4: apply expand_shape; assumption.
  1: apply broadcast_shared. 1: apply broadcast_factors.
  exists r. unfold points_shape in *. rewrite app_assoc. split; [exact C|]. split; [exact S|]. intros i j Wi Wj.
  rewrite (P (i ++ j)) by (apply within_app; assumption). pose proof (within_length _ _ Wj) as Lj.
  rewrite !expand_at, E1, E2, E3, E4. rewrite <- Lj, !source_ones by assumption.
  rewrite source_suffix, source_self by assumption. reflexivity.
Qed.
(** Factors of shape s, other points for each. *)
Lemma each_ok s cs coords (mx cx my cy : arr R) : shape coords = s ++ points_shape cs ->
  shape mx = s -> shape cx = s -> shape my = s -> shape cy = s ->
  let n := length (s ++ cs) in
  exists r, convert_points coords (s ++ points_shape cs) (expand_dims mx n) (expand_dims cx n) (expand_dims my n) (expand_dims cy n) = Some r
    /\ shape r = s ++ points_shape cs /\
    forall i j, within s i -> within cs j -> point r (i ++ j) = conv (Factors (at_ mx i) (at_ cx i) (at_ my i) (at_ cy i)) (point coords (i ++ j)).
Proof.
  intros Ec E1 E2 E3 E4 n. subst n.
  destruct (convert_points_ok (s ++ repeat 1%nat (length cs)) (s ++ cs) (s ++ cs) coords
    (expand_dims mx (length (s ++ cs))) (expand_dims cx (length (s ++ cs))) (expand_dims my (length (s ++ cs))) (expand_dims cy (length (s ++ cs))))
    as (r & C & S & P).
  1: rewrite Ec; unfold points_shape; apply app_assoc.
  1-4: apply expand_shape; assumption.
  1: apply broadcast_each. 1: apply broadcast_factors.
  exists r. unfold points_shape in *. rewrite app_assoc. split; [exact C|]. split; [exact S|]. intros i j Wi Wj.
  rewrite (P (i ++ j)) by (apply within_app; assumption). pose proof (within_length _ _ Wj) as Lj.
  rewrite !expand_at, E1, E2, E3, E4. rewrite <- Lj, !source_ones by assumption.
  rewrite (source_self (s ++ cs)) by (apply within_app; assumption). reflexivity.
Qed.
(** One set of factors. *)
Lemma single_ok cs coords (mx cx my cy : arr R) : shape coords = points_shape cs ->
  shape mx = [] -> shape cx = [] -> shape my = [] -> shape cy = [] ->
  exists r, convert_points coords (shape coords) mx cx my cy = Some r /\ shape r = points_shape cs /\
    forall j, within cs j -> point r j = conv (Factors (at_ mx []) (at_ cx []) (at_ my []) (at_ cy [])) (point coords j).
Proof.
  intros Ec E1 E2 E3 E4. rewrite Ec.
  destruct (convert_points_ok [] cs cs coords mx cx my cy) as (r & C & S & P); try assumption.
  1: apply broadcast_nil. 1: apply broadcast_nil_r.
  exists r. split; [exact C|]. split; [exact S|]. intros j W. rewrite (P j W), (source_self cs j W). reflexivity.
Qed.

(** ** Points of the argument *)
Lemma atleast_points cs coords : shape coords = points_shape cs ->
  exists lead, shape (atleast_2d coords) = points_shape (lead ++ cs) /\ (lead = [] /\ cs <> [] \/ lead = [1%nat] /\ cs = []) /\
    forall i j, within lead i -> within cs j -> point (atleast_2d coords) (i ++ j) = point coords j.
Proof.
  intros E. destruct cs as [|n cs].
  - exists [1%nat]. unfold atleast_2d. rewrite E. cbn [points_shape app shape]. split; [reflexivity|]. split; [right; auto|].
    intros i j Wi Wj. inversion Wi as [|n' s' k i' Hk Hi]; subst. inversion Hi; subst. inversion Wj; subst. reflexivity.
  - exists []. unfold atleast_2d. rewrite E. unfold points_shape. cbn [app]. destruct cs as [|m cs]; cbn [app].
    + split; [exact E|]. split; [left; split; [reflexivity|discriminate]|]. intros i j Wi _. inversion Wi; subst. reflexivity.
    + split; [exact E|]. split; [left; split; [reflexivity|discriminate]|]. intros i j Wi _. inversion Wi; subst. reflexivity.
Qed.
Lemma points_last cs : last (points_shape cs) 0%nat = 2%nat.
Proof. unfold points_shape. apply last_last. Qed.
Lemma last_is_points s : s <> [] -> last s 0%nat = 2%nat -> exists cs, s = points_shape cs.
Proof. intros NE H. exists (removelast s). unfold points_shape. rewrite <- H. apply app_removelast_last. exact NE. Qed.

(** ** Indices *)
Local Open Scope nat_scope.
Lemma position_spec n z k : position n z = Some k <-> counts_to n z k.
Proof.
  unfold position, counts_to. destruct ((0 <=? z)%Z && (z <? Z.of_nat n)%Z) eqn:A.
  - apply andb_true_iff in A. destruct A as [A B]. apply Z.leb_le in A. apply Z.ltb_lt in B.
    split; [intros E; injection E as <-; lia|]. intros [H [E|E]]; f_equal; lia.
  - apply andb_false_iff in A. rewrite Z.leb_gt, Z.ltb_ge in A. destruct ((- Z.of_nat n <=? z)%Z && (z <? 0)%Z) eqn:B.
    + apply andb_true_iff in B. destruct B as [B C]. apply Z.leb_le in B. apply Z.ltb_lt in C.
      split; [intros E; injection E as <-; lia|]. intros [H [E|E]]; f_equal; lia.
    + apply andb_false_iff in B. rewrite Z.leb_gt, Z.ltb_ge in B. split; [discriminate|]. intros [H [E|E]]; exfalso; lia.
Qed.
Lemma position_range n z : position n z <> None <-> (- Z.of_nat n <= z < Z.of_nat n)%Z.
Proof.
  split.
  - intros H. destruct (position n z) as [k|] eqn:E; [|congruence]. apply position_spec in E. unfold counts_to in E. lia.
  - intros H E. destruct (Z_lt_le_dec z 0).
    + assert (C : position n z = Some (Z.to_nat (z + Z.of_nat n))) by (apply position_spec; split; lia). congruence.
    + assert (C : position n z = Some (Z.to_nat z)) by (apply position_spec; split; lia). congruence.
Qed.
Lemma filter_range (a b : nat) : forall n s, filter (fun p => (a <=? p) && (p <? b)) (seq s n) = seq (Nat.max a s) (Nat.min b (s + n) - Nat.max a s).
Proof.
  induction n as [|n IH]; intros s; cbn [seq filter].
  - replace (Nat.min b (s + 0) - Nat.max a s) with 0 by lia. reflexivity.
  - rewrite IH. destruct (a <=? s) eqn:A; destruct (s <? b) eqn:B; cbn [andb].
    + apply Nat.leb_le in A. apply Nat.ltb_lt in B. replace (Nat.max a s) with s by lia.
      replace (Nat.min b (s + S n) - s) with (S (Nat.min b (S s + n) - Nat.max a (S s))) by lia. cbn [seq]. f_equal. f_equal. lia.
    + apply Nat.ltb_ge in B. replace (Nat.min b (S s + n) - Nat.max a (S s)) with 0 by lia.
      replace (Nat.min b (s + S n) - Nat.max a s) with 0 by lia. reflexivity.
    + apply Nat.leb_gt in A. f_equal; lia.
    + apply Nat.leb_gt in A. f_equal; lia.
Qed.
Lemma chosen_eq n lo hi : chosen n lo hi = seq (start_of n lo) (stop_of n hi - start_of n lo).
Proof.
  unfold chosen.
  assert (F : forall p, In p (seq 0 n) ->
    (match lo with None => true | Some z => (from_end n z <=? Z.of_nat p)%Z end && match hi with None => true | Some z => (Z.of_nat p <? from_end n z)%Z end)
    = (start_of n lo <=? p) && (p <? stop_of n hi)).
  { intros p I. apply in_seq in I. f_equal.
    - destruct lo as [z|]; cbn [start_of]; [|symmetry; apply Nat.leb_le; lia]. unfold from_end, clip.
      destruct (z <? 0)%Z eqn:N; [apply Z.ltb_lt in N|apply Z.ltb_ge in N];
      (destruct (_ <=? Z.of_nat p)%Z eqn:L; [apply Z.leb_le in L; symmetry; apply Nat.leb_le; lia|apply Z.leb_gt in L; symmetry; apply Nat.leb_gt; lia]).
    - destruct hi as [z|]; cbn [stop_of]; [|symmetry; apply Nat.ltb_lt; lia]. unfold from_end, clip.
      destruct (z <? 0)%Z eqn:N; [apply Z.ltb_lt in N|apply Z.ltb_ge in N];
      (destruct (Z.of_nat p <? _)%Z eqn:L; [apply Z.ltb_lt in L; symmetry; apply Nat.ltb_lt; lia|apply Z.ltb_ge in L; symmetry; apply Nat.ltb_ge; lia]). }
  rewrite (filter_ext_in _ _ _ F), filter_range. rewrite Nat.max_0_r, Nat.add_0_l. f_equal. f_equal.
  apply Nat.min_l. destruct hi as [z|]; cbn [stop_of]; [|lia]. unfold clip. destruct (z <? 0)%Z eqn:N; [apply Z.ltb_lt in N|apply Z.ltb_ge in N]; lia.
Qed.
Lemma index_ok s : forall es, in_range s es -> exists g, index_axes s es = Some (selected_shape s es, g) /\
  forall i, within (selected_shape s es) i -> selects s es i (g i) /\ within s (g i).
Proof.
  induction s as [|n s IH]; intros [|e es] [L R]; cbn [length] in L; try discriminate.
  - exists (fun _ => []). split; [reflexivity|]. intros i W. inversion W; subst. split; constructor.
  - destruct (IH es) as (g & G & P).
    { split; [congruence|]. intros j m z Hs He. exact (R (S j) m z Hs He). }
    cbn [index_axes]. rewrite G. destruct e as [z|lo hi]; cbn [selected_shape].
    + destruct (position n z) as [k|] eqn:Ep.
      * exists (fun i => k :: g i). split; [reflexivity|]. intros i W. destruct (P i W) as [Q V]. apply position_spec in Ep.
        split; constructor; try assumption. apply Ep.
      * exfalso. apply (proj2 (position_range n z)); [|exact Ep]. exact (R 0 n z eq_refl eq_refl).
    + rewrite chosen_eq, seq_length. eexists. split; [reflexivity|]. intros i W. inversion W as [|m t j i' Hj Hi]; subst.
      cbn [hd tl]. destruct (P i' Hi) as [Q V].
      assert (C : nth_error (chosen n lo hi) j = Some (start_of n lo + j)).
      { rewrite chosen_eq. rewrite nth_error_nth' with (d := 0) by (rewrite seq_length; exact Hj). rewrite seq_nth by exact Hj. reflexivity. }
      split; [constructor; assumption|]. constructor; [|exact V]. apply nth_error_In in C. unfold chosen in C. apply filter_In in C.
      destruct C as [C _]. apply in_seq in C. lia.
Qed.
Lemma index_some s : forall es r, index_axes s es = Some r -> in_range s es.
Proof.
  induction s as [|n s IH]; intros [|e es] r H; cbn [index_axes] in H; try discriminate.
  - split; [reflexivity|]. intros j; destruct j; discriminate.
  - destruct (index_axes s es) as [[t g]|] eqn:G; [|discriminate]. destruct (IH es _ G) as [L R]. split; [cbn; congruence|].
    intros [|j] m z Hs He; [|exact (R j m z Hs He)]. cbn in Hs, He. injection Hs as <-. injection He as ->.
    apply position_range. destruct (position n z); [discriminate|discriminate H].
Qed.
Lemma index_bad s es : ~ in_range s es -> index_axes s es = None.
Proof. intros B. destruct (index_axes s es) eqn:E; [|reflexivity]. exfalso. apply B. eapply index_some. exact E. Qed.
Lemma selects_unique s es : forall i k k', selects s es i k -> selects s es i k' -> k = k'.
Proof.
  revert es. induction s as [|n s IH]; intros es i k k' H H'; inversion H; subst; inversion H'; subst; [reflexivity|..].
  - f_equal; [|eapply IH; eassumption]. unfold counts_to in *. lia.
  - f_equal; [congruence|eapply IH; eassumption].
Qed.
