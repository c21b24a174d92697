(** Lemmas on chunks for C103. *)
From Coq Require Import List Reals Bool Arith Lia.
From Verif Require Import Model.Binary Model.DictIndex Model.Chunking Model.RefinementBounds Model.RefinementResults Model.RefinementChunks.
From Verif Require Import Proofs.ChunkingProofs Proofs.RefinementResultsProofs.
Import ListNotations.
Local Open Scope nat_scope.

Lemma nth_error_skipn' {A} : forall c (l : list A) i, nth_error (skipn c l) i = nth_error l (c + i).
Proof. induction c as [|c IH]; intros [|x l] i; cbn; try reflexivity; [now destruct i|apply IH]. Qed.
Lemma nth_error_firstn' {A} : forall c (l : list A) i, i < c -> nth_error (firstn c l) i = nth_error l i.
Proof. induction c as [|c IH]; intros [|x l] i H; cbn; try reflexivity; try lia. destruct i as [|i]; [reflexivity|]. cbn. apply IH. lia. Qed.
Lemma skipn_combine {A B} : forall c (a : list A) (b : list B), skipn c (combine a b) = combine (skipn c a) (skipn c b).
Proof. induction c as [|c IH]; intros [|x a] [|y b]; cbn; try reflexivity; [now destruct (skipn c a)|apply IH]. Qed.

Lemma all_some_app {A} (a b : list (option A)) : all_some (a ++ b) = let? x := all_some a in let? y := all_some b in Some (x ++ y).
Proof.
  induction a as [|[x|] a IH]; cbn; [now destruct (all_some b)| |reflexivity]. rewrite IH.
  destruct (all_some a); [|reflexivity]. now destruct (all_some b).
Qed.
Lemma all_some_map {A B} (f : A -> B) l : all_some (map (fun x => Some (f x)) l) = Some (map f l).
Proof. induction l as [|x l IH]; cbn; [reflexivity|]. now rewrite IH. Qed.
Lemma all_some_ext {A B} (f g : A -> option B) l : (forall x, In x l -> f x = g x) -> all_some (map f l) = all_some (map g l).
Proof. intros H. f_equal. now apply map_ext_in. Qed.

Lemma cut_map {A B} (f : A -> B) : forall cs l, cut cs (map f l) = map (map f) (cut cs l).
Proof. induction cs as [|c cs IH]; intros l; cbn; [reflexivity|]. now rewrite firstn_map, skipn_map, IH. Qed.
Lemma cut_length {A} : forall cs (l : list A), length (cut cs l) = length cs.
Proof. induction cs as [|c cs IH]; intros l; cbn; [reflexivity|]. now rewrite IH. Qed.
Lemma cut_concat {A} : forall cs (l : list A), axis_length cs = length l -> concat (cut cs l) = l.
Proof.
  induction cs as [|c cs IH]; intros l H; cbn in *; [now destruct l|]. unfold axis_length in *. cbn in H. rewrite IH by (rewrite skipn_length; lia). apply firstn_skipn.
Qed.
Lemma cut_sizes {A} : forall cs (l : list A), axis_length cs = length l -> map (@length A) (cut cs l) = cs.
Proof.
  induction cs as [|c cs IH]; intros l H; cbn in *; [reflexivity|]. unfold axis_length in *. cbn in H.
  rewrite firstn_length, IH by (rewrite skipn_length; lia). f_equal. lia.
Qed.
Lemma cut_combine {A B} : forall cs (a : list A) (b : list B), cut cs (combine a b) = map (fun xy => combine (fst xy) (snd xy)) (combine (cut cs a) (cut cs b)).
Proof. induction cs as [|c cs IH]; intros a b; cbn; [reflexivity|]. now rewrite combine_firstn, skipn_combine, IH. Qed.
Lemma cut_of_blocks {A} : forall b : list (list A), cut (map (@length A) b) (concat b) = b.
Proof.
  induction b as [|x b IH]; cbn; [reflexivity|].
  rewrite firstn_app, firstn_all, Nat.sub_diag, skipn_app, skipn_all, Nat.sub_diag. cbn. now rewrite app_nil_r, IH.
Qed.

(** The largest chunk of equal chunks gives the same chunks again. *)
Lemma max_list_le l c : Forall (fun k => k <= c) l -> fold_right Nat.max 0 l <= c.
Proof. induction 1; cbn; lia. Qed.
Lemma blockdims_max n c : 1 <= c -> 1 <= n -> fold_right Nat.max 0 (blockdims n c) = Nat.min c n.
Proof.
  intros C N. unfold blockdims. destruct (n =? 0) eqn:E; [apply Nat.eqb_eq in E; lia|]. set (k := Nat.min c n). assert (K : 1 <= k <= n) by lia.
  assert (D : 1 <= n / k) by (apply Nat.div_le_lower_bound; lia).
  destruct (n / k) as [|q]; [lia|]. cbn [repeat app fold_right]. apply Nat.max_l. apply max_list_le. rewrite Forall_forall. intros x X.
  apply in_app_or in X as [X|X]; [apply repeat_spec in X; lia|]. destruct (n mod k =? 0); [destruct X|]. destruct X as [<-|[]]. pose proof (Nat.mod_upper_bound n k). lia.
Qed.
Lemma blockdims_again n c : 1 <= c -> 1 <= n -> blockdims n (fold_right Nat.max 0 (blockdims n c)) = blockdims n c.
Proof.
  intros C N. rewrite blockdims_max by assumption. unfold blockdims. destruct (n =? 0); [reflexivity|]. now replace (Nat.min (Nat.min c n) n) with (Nat.min c n) by lia.
Qed.
Lemma blockdims_whole n : blockdims n n = [n].
Proof.
  unfold blockdims. destruct (n =? 0) eqn:E; [apply Nat.eqb_eq in E; now subst|]. apply Nat.eqb_neq in E.
  rewrite Nat.min_id, Nat.div_same, Nat.mod_same by lia. reflexivity.
Qed.

Section Chunks.
Context {Pixel : Type}.
Notation pattern := (list Pixel).
Variables (vs : nat) (f : pattern -> list rows -> list R).
Notation chunk := (chunk_func vs f).

Definition item (args : list (list rows)) (i : nat) (p : pattern) : option (list R) :=
  let? rs := all_some (map (fun a => nth_error a i) args) in let row := f p rs in if length row =? vs then Some row else None.
Lemma chunk_item ps args : chunk ps args = all_some (map (fun ip => item args (fst ip) (snd ip)) (combine (seq 0 (length ps)) ps)).
Proof. reflexivity. Qed.
Lemma combine_seq_shift {A} : forall (l : list A) a c, combine (seq (c + a) (length l)) l = map (fun ip => (c + fst ip, snd ip)) (combine (seq a (length l)) l).
Proof. induction l as [|x l IH]; intros a c; cbn; [reflexivity|]. f_equal. rewrite <- IH. now rewrite <- plus_n_Sm. Qed.
Lemma combine_app {A B} : forall (a a' : list A) (b b' : list B), length a = length b -> combine (a ++ a') (b ++ b') = combine a b ++ combine a' b'.
Proof. induction a as [|x a IH]; intros a' [|y b] b' H; cbn in *; try discriminate; [reflexivity|]. f_equal. apply IH. lia. Qed.
Lemma chunk_split c ps args : c <= length ps ->
  chunk ps args = let? x := chunk (firstn c ps) (map (firstn c) args) in let? y := chunk (skipn c ps) (map (skipn c) args) in Some (x ++ y).
Proof.
  intros H. rewrite !chunk_item. rewrite <- all_some_app. f_equal.
  rewrite <- (firstn_skipn c ps) at 1 2. rewrite app_length, seq_app, combine_app by now rewrite seq_length.
  rewrite map_app. assert (Lc : length (firstn c ps) = c) by (rewrite firstn_length; lia). f_equal.
  - rewrite Lc. apply map_ext_in. intros [i p] I. apply in_combine_l in I. apply in_seq in I. cbn [fst snd]. unfold item. f_equal. rewrite map_map.
    f_equal. apply map_ext. intros a. symmetry. apply nth_error_firstn'. lia.
  - rewrite Lc. replace (0 + c) with (c + 0) by lia. rewrite combine_seq_shift, map_map. apply map_ext. intros [i p]. cbn [fst snd]. unfold item. rewrite map_map.
    f_equal. f_equal. apply map_ext. intros a. symmetry. apply nth_error_skipn'.
Qed.
Lemma chunk_nil args : chunk [] args = Some [].
Proof. reflexivity. Qed.

Lemma chunks_concat : forall cs ps args, axis_length cs = length ps ->
  option_map (@concat _) (all_some (map (fun k => chunk (nth k (cut cs ps) []) (map (fun a => nth k (cut cs a) []) args)) (seq 0 (length cs)))) = chunk ps args.
Proof.
  induction cs as [|c cs IH]; intros ps args H; unfold axis_length in *; cbn [fold_right] in H.
  - destruct ps; [reflexivity|discriminate].
  - cbn [length seq map]. rewrite (chunk_split c ps args) by lia. cbn [cut nth]. rewrite <- seq_shift, map_map.
    cbn [all_some]. rewrite (map_ext (fun x => chunk (nth x (cut cs (skipn c ps)) []) (map (fun a => nth (S x) (cut (c :: cs) a) []) args))
      (fun k => chunk (nth k (cut cs (skipn c ps)) []) (map (fun a => nth k (cut cs a) []) (map (skipn c) args)))).
    2: { intros k. now rewrite map_map. }
    rewrite <- (IH (skipn c ps) (map (skipn c) args)) by (rewrite skipn_length; lia).
    destruct (chunk (firstn c ps) _); [|reflexivity]. now destruct (all_some _).
Qed.

(** Chunk by chunk is the same as all at once. *)
Lemma fold_max_same {A} (g : A -> nat) m l : (forall x, In x l -> g x <= m) -> fold_right Nat.max m (map g l) = m.
Proof. induction l as [|x l IH]; intros H; cbn; [reflexivity|]. rewrite IH by (intros; apply H; now right). assert (g x <= m) by (apply H; now left). lia. Qed.
Lemma block_at_nth {A} (a : list (list A)) k : k < length a -> block_at a k = nth k a [].
Proof. intros H. unfold block_at. destruct (length a =? 1) eqn:E; [apply Nat.eqb_eq in E; now replace k with 0 by lia|reflexivity]. Qed.

Lemma map_blocks_equal cs (ps : list pattern) args : axis_length cs = length ps ->
  map_blocks chunk (cut cs ps) (map (cut cs) args) = chunk ps args.
Proof.
  intros H. unfold map_blocks. rewrite cut_length.
  assert (M : fold_right Nat.max (length cs) (map (length (A:=list rows)) (map (cut cs) args)) = length cs).
  { apply fold_max_same. intros x X. apply in_map_iff in X as (a & <- & _). now rewrite cut_length. }
  rewrite M, Nat.eqb_refl. cbn [orb andb].
  assert (F : forallb (fun a : list (list rows) => (length a =? length cs) || (length a =? 1)) (map (cut cs) args) = true).
  { apply forallb_forall. intros x X. apply in_map_iff in X as (a & <- & _). now rewrite cut_length, Nat.eqb_refl. }
  rewrite F, <- (chunks_concat cs) by assumption. f_equal. apply all_some_ext. intros k K. apply in_seq in K.
  rewrite block_at_nth by (rewrite cut_length; lia). f_equal. rewrite map_map. apply map_ext. intros a. apply block_at_nth. rewrite cut_length. lia.
Qed.

(** Kept: one block holds everything, others beside it are empty. *)
Lemma one_full : forall (b : list (list pattern)), 1 <= length (concat b) -> largest b = length (concat b) ->
  exists x y, b = x ++ [concat b] ++ y /\ concat x = [] /\ concat y = [].
Proof.
  induction b as [|p b IH]; cbn [concat]; intros N L; [cbn in N; lia|]. unfold largest in *. cbn [map fold_right] in L. rewrite app_length in *.
  assert (B : fold_right Nat.max 0 (map (@length pattern) b) <= length (concat b)).
  { clear. induction b as [|p b IH]; cbn; [lia|]. rewrite app_length. lia. }
  destruct (concat b) as [|q c] eqn:E.
  - cbn in L, N. exists [], b. rewrite app_nil_r. repeat split. exact E.
  - cbn [length] in *. assert (P : length p = 0) by lia. destruct p; [|discriminate]. cbn [app].
    destruct IH as (x & y & Ex & X & Y); [lia|lia|]. exists ([] :: x), y. rewrite Ex at 1. repeat split; assumption.
Qed.
Lemma map_blocks_one (ps : list (list pattern)) (args : list (list rows)) n : length (concat ps) = n -> 1 <= n -> largest ps = n -> Forall (fun a => length a = n) args ->
  map_blocks chunk ps (map (cut [n]) args) = chunk (concat ps) args.
Proof.
  intros N P L F. destruct (one_full ps) as (x & y & E & X & Y); [lia|lia|]. set (all := concat ps) in *.
  unfold map_blocks. assert (Lp : length ps = length x + S (length y)) by (rewrite E, !app_length; cbn; lia).
  assert (M : fold_right Nat.max (length ps) (map (length (A:=list rows)) (map (cut [n]) args)) = length ps).
  { apply fold_max_same. intros a A. apply in_map_iff in A as (c & <- & _). rewrite cut_length. cbn. lia. }
  rewrite M, Nat.eqb_refl. cbn [orb andb].
  assert (Fb : forallb (fun a : list (list rows) => (length a =? length ps) || (length a =? 1)) (map (cut [n]) args) = true).
  { apply forallb_forall. intros a A. apply in_map_iff in A as (c & <- & _). rewrite cut_length. cbn. now rewrite orb_true_r. }
  rewrite Fb.
  assert (Ba : forall k, map (fun a => block_at a k) (map (cut [n]) args) = args).
  { intros k. rewrite map_map. rewrite <- (map_id args) at 2. apply map_ext_in. intros a A. rewrite Forall_forall in F. unfold block_at. cbn. now rewrite <- (F a A), firstn_all. }
  rewrite (map_ext_in _ (fun k => chunk (nth k ps []) args)).
  2: { intros k K. apply in_seq in K. rewrite Ba. f_equal. apply block_at_nth. lia. }
  assert (Em : forall z : list (list pattern), concat z = [] -> map (fun b => chunk b args) z = map (fun _ => Some []) z).
  { intros z Z. apply map_ext_in. intros b B. assert (b = []); [|now subst b]. clear - Z B. induction z as [|a z IH]; [destruct B|]. cbn in Z. apply app_eq_nil in Z as (Z1 & Z2). destruct B as [<-|B]; auto. }
  assert (Sq : map (fun k => chunk (nth k ps []) args) (seq 0 (length ps)) = map (fun b => chunk b args) ps).
  { clearbody all. clear. induction ps as [|p ps IH]; [reflexivity|]. cbn [length seq map nth]. f_equal. rewrite <- seq_shift, map_map. exact IH. }
  rewrite Sq, E, !map_app, !all_some_app, (Em x X), (Em y Y), (all_some_map (fun _ => []) x), (all_some_map (fun _ => []) y). cbn [map all_some].
  destruct (chunk all args) as [r|]; [|reflexivity]. cbn -[app concat]. rewrite !concat_app. cbn [concat].
  assert (Z : forall A (z : list A), concat (map (fun _ => @nil (list R)) z) = []) by (intros A z; induction z; [reflexivity|assumption]).
  rewrite !Z. cbn. now rewrite ?app_nil_r.
Qed.

(** All at once: the row of every pattern. *)
Lemma chunk_rows {P} (points : list P) (pat : P -> pattern) (args : list (P -> rows)) :
  (forall p, In p points -> length (f (pat p) (map (fun a => a p) args)) = vs) ->
  chunk (map pat points) (map (fun a => map a points) args) = Some (map (fun p => f (pat p) (map (fun a => a p) args)) points).
Proof.
  intros H. rewrite chunk_item, map_length.
  assert (G : forall k l, (forall i p, nth_error l i = Some p -> nth_error points (k + i) = Some p) -> (forall p, In p l -> In p points) ->
    all_some (map (fun ip : nat * pattern => item (map (fun a => map a points) args) (fst ip) (snd ip)) (combine (seq k (length l)) (map pat l)))
    = Some (map (fun p => f (pat p) (map (fun a => a p) args)) l)).
  { intros k l. revert k. induction l as [|p l IH]; intros k N I; [reflexivity|]. cbn [length seq map combine all_some fst snd].
    unfold item at 1. rewrite map_map.
    rewrite (map_ext (fun x => nth_error (map x points) k) (fun x => Some (x p))).
    2: { intros a. apply map_nth_error. specialize (N 0 p eq_refl). now rewrite Nat.add_0_r in N. }
    rewrite (all_some_map (fun x : P -> rows => x p) args). cbn [bind].
    rewrite (H p (I p (or_introl eq_refl))), Nat.eqb_refl. rewrite (IH (S k)); [reflexivity| |intros q Q; apply I; now right].
    intros i q Q. specialize (N (S i) q Q). now rewrite <- plus_n_Sm in N. }
  apply (G 0 points); auto.
Qed.
End Chunks.
