(** Prepared patterns and masks. *)
From Coq Require Import List Arith Bool Lia.
From Verif Require Import Model.Binary Model.DictIndex Model.MetricState Spec.MetricSpec.
Import ListNotations.

Lemma compress_seq : forall {A} (f : nat -> A) m a,
  compress (map negb m) (map f (seq a (length m))) = map f (filter (fun i => negb (nth (i - a) m false)) (seq a (length m))).
Proof.
  intros A f m. induction m as [|b m IH]; intros a; [reflexivity|]. cbn [length seq map compress filter].
  rewrite Nat.sub_diag. cbn [nth]. rewrite IH.
  assert (E : filter (fun i => negb (nth (i - S a) m false)) (seq (S a) (length m)) = filter (fun i => negb (nth (i - a) (b :: m) false)) (seq (S a) (length m))).
  { apply filter_ext_in. intros i Hi. apply in_seq in Hi. replace (i - a) with (S (i - S a)) by lia. reflexivity. }
  rewrite E. destruct b; reflexivity.
Qed.
Lemma scatter_seq : forall {A} (g : nat -> A) m a,
  scatter None (map negb m) (map Some (map g (filter (fun i => negb (nth (i - a) m false)) (seq a (length m))))) =
  Some (map (fun i => if nth (i - a) m false then None else Some (g i)) (seq a (length m))).
Proof.
  intros A g m. induction m as [|b m IH]; intros a; [reflexivity|]. cbn [length seq map filter].
  rewrite Nat.sub_diag. change (nth 0 (b :: m) false) with b.
  assert (E : filter (fun i => negb (nth (i - a) (b :: m) false)) (seq (S a) (length m)) = filter (fun i => negb (nth (i - S a) m false)) (seq (S a) (length m))).
  { apply filter_ext_in. intros i Hi. apply in_seq in Hi. replace (i - a) with (S (i - S a)) by lia. reflexivity. }
  assert (F : map (fun i => if nth (i - a) (b :: m) false then None else Some (g i)) (seq (S a) (length m)) =
              map (fun i => if nth (i - S a) m false then None else Some (g i)) (seq (S a) (length m))).
  { apply map_ext_in. intros i Hi. apply in_seq in Hi. replace (i - a) with (S (i - S a)) by lia. reflexivity. }
  rewrite E, F. destruct b; cbn [negb map scatter]; rewrite IH; reflexivity.
Qed.
Lemma firstn_skipn_seq : forall {A} (d : A) (l : list A) i k, i + k <= length l ->
  firstn k (skipn i l) = map (fun p => nth (i + p) l d) (seq 0 k).
Proof.
  intros A d l i k H. apply (nth_ext _ _ d d).
  - rewrite firstn_length, skipn_length, map_length, seq_length. lia.
  - intros n Hn. rewrite firstn_length, skipn_length in Hn.
    rewrite (nth_indep (map _ _) d (nth (i + 0) l d)) by (rewrite map_length, seq_length; lia).
    rewrite (map_nth (fun p => nth (i + p) l d)), seq_nth by lia. cbn [Nat.add].
    rewrite <- (firstn_skipn i l) at 2. rewrite app_nth2 by (rewrite firstn_length; lia).
    rewrite firstn_length. replace (i + n - Nat.min i (length l)) with n by lia.
    rewrite <- (firstn_skipn k (skipn i l)) at 2. rewrite app_nth1 by (rewrite firstn_length, skipn_length; lia). reflexivity.
Qed.
Lemma all_map : forall {A B C} (f : B -> option C) (g : A -> B) (h : A -> C) l, (forall x, In x l -> f (g x) = Some (h x)) ->
  all f (map g l) = Some (map h l).
Proof.
  induction l as [|x l IH]; intros H; [reflexivity|]. cbn [map all]. rewrite H by (left; reflexivity). cbn [bind].
  rewrite IH by (intros; apply H; right; assumption). reflexivity.
Qed.

Section P.
Context {Pixel Dtype Score : Type} (zero : Pixel) (allowed : Dtype -> bool) (cast : Dtype -> Pixel -> Pixel).
Context (similarity : Dtype -> list Pixel -> list Pixel -> Score).

Lemma reshape_rows : forall n k (l : list Pixel), 0 < n -> length l = n * k ->
  reshape _ n l = Some (map (fun i => map (fun p => nth (i * k + p) l zero) (seq 0 k)) (seq 0 n)).
Proof.
  intros n k l Hn HL. unfold reshape. rewrite HL.
  replace (n * k) with (k * n) by lia. rewrite Nat.mod_mul, Nat.div_mul by lia.
  replace (n =? 0) with false by (symmetry; apply Nat.eqb_neq; lia). cbn [Nat.eqb negb orb]. f_equal.
  apply map_ext_in. intros i Hi. apply in_seq in Hi. apply firstn_skipn_seq. nia.
Qed.
Lemma unmasked_rows : forall {A} (f : nat -> A) m n, (match m with Some m => length (ravel m) = n | None => True end) ->
  unmasked m (map f (seq 0 n)) = Some (map f (filter (fun i => negb (hidden m i)) (seq 0 n))).
Proof.
  intros A f [m|] n H; cbn [unmasked hidden].
  - rewrite map_length, seq_length, H, Nat.eqb_refl. subst n. rewrite compress_seq. f_equal. f_equal.
    apply filter_ext. intro i. rewrite Nat.sub_0_r. reflexivity.
  - f_equal. f_equal. generalize (seq 0 n). induction l as [|x l IH]; [reflexivity|]. cbn [filter negb]. rewrite <- IH at 1. reflexivity.
Qed.
Lemma nth_cast : forall d (l : list Pixel) i, i < length l -> nth i (map (cast d) l) zero = cast d (nth i l zero).
Proof.
  intros d l i H. rewrite (nth_indep (map (cast d) l) zero (cast d zero)) by (rewrite map_length; exact H). apply map_nth.
Qed.

Lemma prepared_experimental : forall m (s : signal Pixel),
  full s -> n_experimental _ m = Some (product (nav_shape _ s)) ->
  of_shape (navigation_mask _ m) (nav_shape _ s) ->
  (match signal_mask _ m with Some sm => length (ravel sm) = product (sig_shape _ s) | None => True end) ->
  prepare_experimental _ _ cast m (data _ s) =
  Some (map (visible zero cast (product (sig_shape _ s)) (signal_mask _ m) (dtype Dtype m) s)
         (filter (fun i => negb (hidden (navigation_mask _ m) i)) (seq 0 (product (nav_shape _ s))))).
Proof.
  intros m s [HP HL] HN HM HS. unfold prepare_experimental. rewrite HN. cbn [bind].
  rewrite (reshape_rows _ (product (sig_shape _ s))) by (try rewrite map_length; assumption). cbn [bind].
  rewrite unmasked_rows by (destruct (navigation_mask _ m); [apply HM|exact I]). cbn [bind].
  apply all_map. intros i Hi. apply filter_In in Hi. destruct Hi as [Hi _]. apply in_seq in Hi.
  rewrite unmasked_rows by exact HS. f_equal. unfold visible. apply map_ext_in. intros p Hp.
  apply filter_In in Hp. destruct Hp as [Hp _]. apply in_seq in Hp. apply nth_cast. unfold product in *. nia.
Qed.
Lemma prepared_dictionary : forall m (s : signal Pixel),
  full s -> n_dictionary _ m = Some (product (nav_shape _ s)) ->
  (match signal_mask _ m with Some sm => length (ravel sm) = product (sig_shape _ s) | None => True end) ->
  prepare_dictionary _ _ cast m (data _ s) =
  Some (map (visible zero cast (product (sig_shape _ s)) (signal_mask _ m) (dtype Dtype m) s) (seq 0 (product (nav_shape _ s)))).
Proof.
  intros m s [HP HL] HN HS. unfold prepare_dictionary. rewrite HN. cbn [bind].
  rewrite (reshape_rows _ (product (sig_shape _ s))) by assumption. cbn [bind].
  apply all_map. intros i Hi. rewrite map_map. rewrite unmasked_rows by exact HS. reflexivity.
Qed.

Lemma match_documented : forall m (c : call Pixel Dtype),
  full (experimental _ _ c) -> full (dictionary _ _ c) -> sig_shape _ (experimental _ _ c) = sig_shape _ (dictionary _ _ c) ->
  n_experimental _ m = Some (product (nav_shape _ (experimental _ _ c))) ->
  n_dictionary _ m = Some (product (nav_shape _ (dictionary _ _ c))) ->
  of_shape (navigation_mask _ m) (nav_shape _ (experimental _ _ c)) ->
  (match signal_mask _ m with Some sm => length (ravel sm) = product (sig_shape _ (experimental _ _ c)) | None => True end) ->
  match_all _ _ _ cast similarity m c =
  Some (documented zero cast similarity (experimental _ _ c) (dictionary _ _ c) (navigation_mask _ m) (signal_mask _ m) (dtype _ m)).
Proof.
  intros m c FE FD ES NE ND HM HS. unfold match_all.
  rewrite prepared_experimental by assumption. cbn [bind].
  rewrite prepared_dictionary by (try rewrite <- ES; assumption). cbn [bind]. rewrite <- ES. unfold documented.
  change (fold_right Nat.mul 1 (nav_shape _ (dictionary _ _ c))) with (product (nav_shape _ (dictionary _ _ c))).
  change (fold_right Nat.mul 1 (sig_shape _ (experimental _ _ c))) with (product (sig_shape _ (experimental _ _ c))).
  change (fold_right Nat.mul 1 (nav_shape _ (experimental _ _ c))) with (product (nav_shape _ (experimental _ _ c))).
  pose (g := fun r => map (fun j => similarity (dtype _ m)
      (visible zero cast (product (sig_shape _ (experimental _ _ c))) (signal_mask _ m) (dtype _ m) (experimental _ _ c) r)
      (visible zero cast (product (sig_shape _ (experimental _ _ c))) (signal_mask _ m) (dtype _ m) (dictionary _ _ c) j))
      (seq 0 (product (nav_shape _ (dictionary _ _ c))))).
  match goal with |- context [map (fun p => map (similarity _ p) ?D) (map ?v ?I)] =>
    replace (map (fun p => map (similarity (dtype _ m) p) D) (map v I)) with (map g I)
      by (rewrite map_map; apply map_ext; intro r; rewrite map_map; reflexivity) end.
  transitivity (Some (map (fun r => if hidden (navigation_mask _ m) r then None else Some (g r)) (seq 0 (product (nav_shape _ (experimental _ _ c))))));
    [clearbody g|reflexivity].
  destruct (navigation_mask _ m) as [nm|]; cbn [hidden].
  - destruct HM as [_ HM]. change (length (ravel nm) = product (nav_shape _ (experimental _ _ c))) in HM. rewrite HM, Nat.eqb_refl, <- HM.
    assert (E : filter (fun i => negb (nth i (ravel nm) false)) (seq 0 (length (ravel nm))) =
                filter (fun i => negb (nth (i - 0) (ravel nm) false)) (seq 0 (length (ravel nm)))).
    { apply filter_ext. intro i. rewrite Nat.sub_0_r. reflexivity. }
    rewrite E, scatter_seq. f_equal. apply map_ext. intro i. rewrite Nat.sub_0_r. reflexivity.
  - assert (F : forall l : list nat, filter (fun _ => negb false) l = l).
    { induction l as [|x l IH]; [reflexivity|]. cbn [filter negb]. rewrite <- IH at 2. reflexivity. }
    rewrite F, map_map. reflexivity.
Qed.
End P.
