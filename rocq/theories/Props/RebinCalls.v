(** rebin() however it is called: property C105. *)
From Coq Require Import List Arith ZArith Reals Bool Lia Lra.
From Verif Require Import Spec.Rebinning Model.Binary Model.RebinCalls.
From Verif Require Model.Detector Model.SignalHistory Proofs.DetectorProofs.
Import ListNotations.

(** The factor asked for an axis of n values, at position i of the request. *)
Definition asked (q : request) (n i : nat) : R :=
  match q with NewShape l => (INR n / INR (nth i l 0%nat))%R | Scale l => nth i l 0%R end.
(** The request leaves the map as it is. *)
Definition map_kept {X} (q : request) (s : signal X) : Prop :=
  match q with
  | NewShape l => rev (firstn (length (nav s)) l) = nav s
  | Scale l => forall f, In f (firstn (length (nav s)) l) -> f = 1%R
  end.
(** No axis is empty. *)
Definition filled {X} (s : signal X) : Prop := forall n, In n (shape s) -> (1 <= n)%nat.

(** ** Lemmas *)

Lemma total_sum n g : total n g = sum_of n g.
Proof. induction n; cbn; congruence. Qed.
Lemma weight_share f i j : weight f i j = share f i j.
Proof. unfold weight, share, common. rewrite !Nat.add_1_r. reflexivity. Qed.
Lemma sum_ext n g h : (forall k, (k < n)%nat -> g k = h k) -> sum_of n g = sum_of n h.
Proof. induction n; cbn; intros H; [auto|]. rewrite IHn, H by auto with arith. reflexivity. Qed.
Lemma sum_zero n : sum_of n (fun _ => 0%R) = 0%R.
Proof. induction n; cbn; [auto|]. rewrite IHn. lra. Qed.
Lemma sum_scale n c g : sum_of n (fun k => c * g k)%R = (c * sum_of n g)%R.
Proof. induction n; cbn; [lra|]. rewrite IHn. lra. Qed.
Lemma sum_add n g h : sum_of n (fun k => g k + h k)%R = (sum_of n g + sum_of n h)%R.
Proof. induction n; cbn; [lra|]. rewrite IHn. lra. Qed.
Lemma sum_swap n m (g : nat -> nat -> R) : sum_of n (fun i => sum_of m (g i)) = sum_of m (fun j => sum_of n (fun i => g i j)).
Proof. induction n; cbn; [symmetry; apply sum_zero|]. now rewrite IHn, <- sum_add. Qed.
Lemma sum_pick n i g : (i < n)%nat -> sum_of n (fun k => (if Nat.eqb k i then 1 else 0) * g k)%R = g i.
Proof.
  induction n; intros H; [lia|]. cbn. destruct (Nat.eqb_spec n i) as [->|N].
  - rewrite (sum_ext i _ (fun _ => 0%R)), sum_zero; [lra|]. intros k Hk. destruct (Nat.eqb_spec k i); [lia|lra].
  - rewrite IHn by lia. lra.
Qed.
Lemma share_one i j : share 1 i j = (if Nat.eqb j i then 1 else 0)%R.
Proof.
  unfold share, common. rewrite !Rmult_1_r, !plus_INR. cbn [INR].
  destruct (Nat.eqb_spec j i) as [->|N].
  - unfold Rmax, Rmin. repeat destruct (Rle_dec _ _); lra.
  - destruct (Nat.lt_ge_cases i j) as [H|H].
    + assert (INR i + 1 <= INR j)%R by (rewrite <- S_INR; apply le_INR; lia).
      unfold Rmax, Rmin. repeat destruct (Rle_dec _ _); lra.
    + assert (INR j + 1 <= INR i)%R by (rewrite <- S_INR; apply le_INR; lia).
      unfold Rmax, Rmin. repeat destruct (Rle_dec _ _); lra.
Qed.
(** Adjacent intervals. *)
Lemma common_adjacent a b c u v : (a <= b <= c)%R -> (u <= v)%R -> (common a b u v + common b c u v = common a c u v)%R.
Proof. intros H Hu. unfold common, Rmax, Rmin. repeat destruct (Rle_dec _ _); lra. Qed.
Lemma shares_up_to f m j : (0 < f)%R -> sum_of m (fun i => share f i j) = common 0 (INR m * f) (INR j) (INR (j + 1)).
Proof.
  intros Hf. induction m.
  - cbn [sum_of INR]. rewrite Rmult_0_l. unfold common. pose proof (pos_INR j). rewrite plus_INR. cbn [INR].
    unfold Rmax, Rmin. repeat destruct (Rle_dec _ _); lra.
  - cbn [sum_of]. rewrite IHm. unfold share. rewrite common_adjacent.
    + now rewrite Nat.add_1_r.
    + pose proof (pos_INR m). rewrite Nat.add_1_r, S_INR. split; [apply Rmult_le_pos; lra|]. apply Rmult_le_compat_r; lra.
    + apply le_INR; lia.
Qed.
(** All of every old pixel is somewhere if nothing is left over. *)
Lemma shares_all f m n j : (0 < f)%R -> (INR m * f = INR n)%R -> (j < n)%nat -> sum_of m (fun i => share f i j) = 1%R.
Proof.
  intros Hf E Hj. rewrite shares_up_to, E by auto. unfold common. pose proof (pos_INR j).
  assert (INR (j + 1) <= INR n)%R by (apply le_INR; lia).
  rewrite plus_INR in *. cbn [INR] in *. unfold Rmax, Rmin. repeat destruct (Rle_dec _ _); lra.
Qed.

Lemma zip_app {A B C} (h : A -> B -> C) a b c d : length a = length c -> zip_with h (a ++ b) (c ++ d) = zip_with h a c ++ zip_with h b d.
Proof.
  revert c. induction a as [|x a IH]; intros [|y c] L; try discriminate; [reflexivity|].
  unfold zip_with in *. cbn. f_equal. apply IH. now injection L.
Qed.
Lemma zip_length {A B C} (h : A -> B -> C) a c : length a = length c -> length (zip_with h a c) = length a.
Proof. intros L. unfold zip_with. rewrite map_length, combine_length. lia. Qed.
Lemma array_order_split {A} k (l : list A) z : length l = S (S k) -> array_order k l = rev (firstn k l) ++ [nth (S k) l z; nth k l z].
Proof.
  intros L. unfold array_order. f_equal.
  assert (Ls : length (skipn k l) = 2%nat) by (rewrite skipn_length; lia).
  assert (N : forall i, nth i (skipn k l) z = nth (k + i) l z).
  { intros i. rewrite <- (firstn_skipn k l) at 2. rewrite app_nth2; rewrite firstn_length_le by lia; [|lia]. f_equal. lia. }
  destruct (skipn k l) as [|a [|b [|]]]; try discriminate. pose proof (N 0%nat) as N0. pose proof (N 1%nat) as N1. cbn in N0, N1.
  rewrite Nat.add_0_r in N0. rewrite Nat.add_1_r in N1. cbn. congruence.
Qed.
Lemma div_self_list l : (forall n, In n l -> (1 <= n)%nat) -> zip_with (fun n m => INR n / INR m)%R l l = repeat 1%R (length l).
Proof.
  induction l as [|n l IH]; intros H; [reflexivity|]. unfold zip_with in *. cbn. f_equal.
  - cbn. field. apply not_0_INR. specialize (H n (or_introl eq_refl)). lia.
  - apply IH. intros m Hm. apply H. now right.
Qed.
Lemma all_ones l : (forall f, In f l -> f = 1%R) -> l = repeat 1%R (length l).
Proof. induction l as [|f l IH]; intros H; [auto|]. cbn. f_equal; [apply H; now left|apply IH; intros g G; apply H; now right]. Qed.

Lemma factors_split k nv ny nx q fs : k = length nv -> (forall n, In n (nv ++ [ny; nx]) -> (1 <= n)%nat) ->
  factors k (nv ++ [ny; nx]) q = Some fs ->
  exists fn, length fn = k /\ fs = fn ++ [asked q ny (S k); asked q nx k]
    /\ (0 < asked q ny (S k))%R /\ (0 < asked q nx k)%R
    /\ factors 0 [ny; nx] (signal_part k q) = Some [asked q ny (S k); asked q nx k]
    /\ (match q with NewShape l => rev (firstn k l) = nv | Scale l => forall f, In f (firstn k l) -> f = 1%R end -> fn = repeat 1%R k)
    /\ match q with NewShape l => length l = S (S k) /\ Forall (fun m => 1 <= m)%nat l | Scale l => length l = S (S k) /\ Forall (fun f => 0 < f)%R l end.
Proof.
  intros Hk Hp E. destruct q as [l|l]; cbn [factors asked signal_part] in *.
  - destruct (_ && _)%bool eqn:Eb; [|discriminate]. injection E as <-. apply andb_true_iff in Eb as [El Ea].
    apply Nat.eqb_eq in El. rewrite app_length in El. cbn in El. assert (L : length l = S (S k)) by lia.
    assert (P : Forall (fun m => 1 <= m)%nat l).
    { apply Forall_forall. intros m Hm. rewrite forallb_forall in Ea. specialize (Ea m Hm). apply Nat.ltb_lt in Ea. lia. }
    rewrite (array_order_split k l 0%nat L).
    assert (Lr : length nv = length (rev (firstn k l))) by (rewrite rev_length, firstn_length_le; lia).
    assert (Q1 : (0 < INR (nth (S k) l 0%nat))%R) by (apply lt_0_INR; assert (In (nth (S k) l 0%nat) l) by (apply nth_In; lia); rewrite Forall_forall in P; specialize (P _ H); lia).
    assert (Q0 : (0 < INR (nth k l 0%nat))%R) by (apply lt_0_INR; assert (In (nth k l 0%nat) l) by (apply nth_In; lia); rewrite Forall_forall in P; specialize (P _ H); lia).
    assert (Py : (0 < INR ny)%R) by (apply lt_0_INR; assert (1 <= ny)%nat by (apply Hp, in_or_app; right; now left); lia).
    assert (Px : (0 < INR nx)%R) by (apply lt_0_INR; assert (1 <= nx)%nat by (apply Hp, in_or_app; right; right; now left); lia).
    exists (zip_with (fun n m => INR n / INR m)%R nv (rev (firstn k l))).
    split; [rewrite zip_length; [congruence|exact Lr]|]. split; [rewrite zip_app by exact Lr; reflexivity|].
    split; [now apply Rdiv_lt_0_compat|]. split; [now apply Rdiv_lt_0_compat|]. split; [|split].
    + cbn. assert (T1 : (0 <? nth (S k) l 0)%nat = true) by (apply Nat.ltb_lt, INR_lt; exact Q1).
      assert (T0 : (0 <? nth k l 0)%nat = true) by (apply Nat.ltb_lt, INR_lt; exact Q0).
      destruct (nth k l 0%nat); [discriminate|]. cbn [forallb] in *. 
      change (match l with [] => 0%nat | _ :: t => nth k t 0%nat end) with (nth (S k) l 0%nat). destruct (nth (S k) l 0%nat); [discriminate|]. reflexivity.
    + intros ->. rewrite div_self_list; [congruence|]. intros n Hn. apply Hp, in_or_app. now left.
    + split; [exact L|exact P].
  - destruct (_ && _)%bool eqn:Eb; [|discriminate]. injection E as <-. apply andb_true_iff in Eb as [El Ea].
    apply Nat.eqb_eq in El. rewrite app_length in El. cbn in El. assert (L : length l = S (S k)) by lia.
    assert (P : Forall (fun f => 0 < f)%R l).
    { apply Forall_forall. intros m Hm. rewrite forallb_forall in Ea. specialize (Ea m Hm). unfold positive in Ea. destruct (Rlt_dec 0 m); [auto|discriminate]. }
    rewrite (array_order_split k l 0%R L).
    assert (Q1 : (0 < nth (S k) l 0)%R) by (rewrite Forall_forall in P; apply P, nth_In; lia).
    assert (Q0 : (0 < nth k l 0)%R) by (rewrite Forall_forall in P; apply P, nth_In; lia).
    exists (rev (firstn k l)). split; [rewrite rev_length, firstn_length_le; lia|]. split; [reflexivity|]. split; [auto|]. split; [auto|]. split; [|split].
    + cbn [rev app map length Nat.eqb forallb]. unfold positive. destruct (Rlt_dec 0 (nth k l 0%R)); [|contradiction].
      destruct (Rlt_dec 0 (nth (S k) l 0%R)); [|contradiction]. reflexivity.
    + intros H. rewrite (all_ones (firstn k l) H), firstn_length_le by lia. clear. 
      induction k; [reflexivity|]. cbn [repeat rev]. rewrite IHk. clear. induction k; [reflexivity|]. cbn. now rewrite IHk.
    + split; [exact L|exact P].
Qed.

Lemma binned_ext ns : forall fs a b idx, (forall i, a i = b i) -> binned ns fs a idx = binned ns fs b idx.
Proof.
  induction ns as [|n ns IH]; intros fs a b idx H; cbn; [auto|]. destruct fs as [|f fs]; [auto|]. destruct idx as [|i idx]; [auto|].
  rewrite !total_sum. apply sum_ext. intros j _. f_equal. apply IH. auto.
Qed.
Lemma binned_ones nv : forall p ns fs a idx, Forall2 (fun i n => i < n)%nat p nv ->
  binned (nv ++ ns) (repeat 1%R (length nv) ++ fs) a (p ++ idx) = binned ns fs (fun r => a (p ++ r)) idx.
Proof.
  induction nv as [|n nv IH]; intros p ns fs a idx H; inversion H; subst; [apply binned_ext; auto|]. cbn [app repeat length binned].
  rewrite total_sum, (sum_ext _ _ (fun j => (if Nat.eqb j x then 1 else 0) * binned (nv ++ ns) (repeat 1%R (length nv) ++ fs) (fun r => a (j :: r)) (l ++ idx))%R)
    by (intros j _; rewrite weight_share, share_one; reflexivity).
  rewrite (sum_pick n x (fun j => binned (nv ++ ns) (repeat 1%R (length nv) ++ fs) (fun r => a (j :: r)) (l ++ idx))) by assumption.
  now rewrite IH.
Qed.
Lemma binned_two ny nx fy fx a y x : binned [ny; nx] [fy; fx] a [y; x] = binned_pixel ny nx fy fx (fun u v => a [u; v]) y x.
Proof.
  cbn [binned]. unfold binned_pixel. rewrite total_sum. apply sum_ext. intros u _. rewrite total_sum, <- sum_scale. apply sum_ext.
  intros v _. rewrite !weight_share. ring.
Qed.
Lemma floor_spec x : (IZR (Int_part x) <= x < IZR (Int_part x) + 1)%R.
Proof. destruct (base_Int_part x). lra. Qed.
Lemma new_size_sized crop n f : (0 < f)%R -> (1 <= new_size crop n f)%nat -> sized crop n f (new_size crop n f).
Proof.
  intros Hf. unfold new_size, sized. set (q := (INR n / f)%R). assert (Hq : (INR n = q * f)%R) by (unfold q; field; lra). destruct crop.
  - pose proof (floor_spec q). intros H1. rewrite plus_INR, INR_IZR_INZ, Z2Nat.id by lia. cbn [INR]. rewrite Hq. split; [apply Rmult_le_compat_r; lra|apply Rmult_lt_compat_r; lra].
  - pose proof (floor_spec (- q)). intros H1. rewrite INR_IZR_INZ, Z2Nat.id by lia. rewrite opp_IZR, Hq. split; [apply Rmult_lt_compat_r; lra|apply Rmult_le_compat_r; lra].
Qed.
Lemma sized_unique crop n f m m' : (0 < f)%R -> sized crop n f m -> sized crop n f m' -> m = m'.
Proof.
  intros Hf. unfold sized. destruct crop; rewrite ?plus_INR; cbn [INR]; intros H H'.
  - assert (INR m < INR m' + 1)%R by (apply Rmult_lt_reg_r with f; lra). assert (INR m' < INR m + 1)%R by (apply Rmult_lt_reg_r with f; lra).
    rewrite <- S_INR in *. apply INR_lt in H0, H1. lia.
  - assert (INR m - 1 < INR m')%R by (apply Rmult_lt_reg_r with f; lra). assert (INR m' - 1 < INR m)%R by (apply Rmult_lt_reg_r with f; lra).
    assert (INR m < INR (S m'))%R by (rewrite S_INR; lra). assert (INR m' < INR (S m))%R by (rewrite S_INR; lra). apply INR_lt in H2, H3. lia.
Qed.
Lemma new_size_exact crop n m f : (0 < f)%R -> (INR m * f = INR n)%R -> (1 <= n)%nat -> new_size crop n f = m.
Proof.
  intros Hf E Hn. assert (Q : (INR n / f = INR m)%R) by (rewrite <- E; field; lra). unfold new_size. rewrite Q.
  assert (U : forall z, Int_part (IZR z) = z).
  { intros z. pose proof (floor_spec (IZR z)) as [A B]. rewrite <- plus_IZR in B. apply le_IZR in A. apply lt_IZR in B. lia. }
  rewrite INR_IZR_INZ, <- opp_IZR, !U, Z.opp_involutive. destruct crop; apply Nat2Z.id.
Qed.
Lemma same_spec a b : same a b = true <-> a = b.
Proof. unfold same. destruct (list_eq_dec Nat.eq_dec a b); split; congruence. Qed.

(** ** What a call gives *)
Section Calls.
Context {X : Type}.
Variable round : R -> R.
Implicit Types s : signal X.

(** The sizes of a result. *)
Lemma rebin_shape q crop s s' : filled s -> rebin round q crop s = Some s' ->
  exists fn, factors (length (nav s)) (shape s) q = Some (fn ++ [asked q (fst (sig s)) (S (length (nav s))); asked q (snd (sig s)) (length (nav s))])
    /\ length fn = length (nav s)
    /\ nav s' = zip_with (new_size crop) (nav s) fn
    /\ sig s' = (new_size crop (fst (sig s)) (asked q (fst (sig s)) (S (length (nav s)))), new_size crop (snd (sig s)) (asked q (snd (sig s)) (length (nav s))))
    /\ (forall i, data s' i = round (binned (shape s) (fn ++ [asked q (fst (sig s)) (S (length (nav s))); asked q (snd (sig s)) (length (nav s))]) (data s) i))
    /\ filled s'.
Proof.
  intros Hp E. unfold rebin, hs_rebin in E. destruct (factors _ _ _) as [fs|] eqn:Ef; [|discriminate]. cbn [bind] in E.
  destruct (factors_split _ _ _ _ _ _ eq_refl Hp Ef) as (fn & Lf & -> & _). exists fn. split; [reflexivity|]. split; [exact Lf|].
  destruct (existsb _ _) eqn:Ex; [discriminate|]. cbn [bind fst snd] in E.
  set (fy := asked q (fst (sig s)) _) in *. set (fx := asked q (snd (sig s)) _) in *.
  assert (Z : zip_with (new_size crop) (shape s) (fn ++ [fy; fx])
              = zip_with (new_size crop) (nav s) fn ++ [new_size crop (fst (sig s)) fy; new_size crop (snd (sig s)) fx]).
  { unfold shape. rewrite zip_app by congruence. reflexivity. }
  assert (F : forall n, In n (zip_with (new_size crop) (shape s) (fn ++ [fy; fx])) -> (1 <= n)%nat).
  { intros n Hn. destruct n; [|lia]. exfalso. assert (existsb (Nat.eqb 0) (zip_with (new_size crop) (shape s) (fn ++ [fy; fx])) = true); [|congruence].
    apply existsb_exists. exists 0%nat. auto. }
  rewrite Z in *.
  assert (Ln : length (zip_with (new_size crop) (nav s) fn) = length (nav s)) by (apply zip_length; congruence).
  destruct (same _ (shape s)) eqn:Es.
  - apply same_spec in Es. injection E as <-. cbn [nav sig data]. unfold shape in Es. rewrite <- Z in F.
    assert (E1 : zip_with (new_size crop) (nav s) fn = nav s /\ [new_size crop (fst (sig s)) fy; new_size crop (snd (sig s)) fx] = [fst (sig s); snd (sig s)]).
    { clear - Es Ln. revert Es Ln. generalize (zip_with (new_size crop) (nav s) fn). generalize (nav s). 
      induction l as [|a l IH]; intros [|b m] Es Ln; try discriminate; [auto|]. cbn in Es. injection Es as -> Es. destruct (IH m Es ltac:(now injection Ln)) as [-> ->]. auto. }
    destruct E1 as [E1 E2]. rewrite E1. split; [reflexivity|]. split; [destruct (sig s); cbn in *; congruence|]. split; [reflexivity|]. exact Hp.
  - assert (N0 : nth (length (nav s)) (zip_with (new_size crop) (nav s) fn ++ [new_size crop (fst (sig s)) fy; new_size crop (snd (sig s)) fx]) 0%nat = new_size crop (fst (sig s)) fy).
    { rewrite app_nth2 by lia. rewrite Ln, Nat.sub_diag. reflexivity. }
    assert (N1 : nth (S (length (nav s))) (zip_with (new_size crop) (nav s) fn ++ [new_size crop (fst (sig s)) fy; new_size crop (snd (sig s)) fx]) 0%nat = new_size crop (snd (sig s)) fx).
    { rewrite app_nth2 by lia. rewrite Ln. replace (S (length (nav s)) - length (nav s))%nat with 1%nat by lia. reflexivity. }
    assert (N2 : firstn (length (nav s)) (zip_with (new_size crop) (nav s) fn ++ [new_size crop (fst (sig s)) fy; new_size crop (snd (sig s)) fx]) = zip_with (new_size crop) (nav s) fn).
    { rewrite firstn_app, Ln, Nat.sub_diag, firstn_O, app_nil_r. apply firstn_all2. lia. }
    rewrite N0, N1, N2 in E. destruct (rebin_background _ _ _ _ _); [|discriminate]. cbn [bind] in E.
    destruct (same _ (nav s)); injection E as <-; cbn [nav sig data]; (split; [reflexivity|]; split; [reflexivity|]; split; [reflexivity|]; exact F).
Qed.

(** The attributes of a result. *)
Lemma rebin_attributes q crop s s' : filled s -> rebin round q crop s = Some s' ->
  (nav s' = nav s /\ sig s' = sig s /\ detector s' = detector s /\ background s' = background s /\ xmap s' = xmap s)
  \/ (~ (nav s' = nav s /\ sig s' = sig s)
      /\ ((nav s' = nav s /\ detector s' = rebin_detector s (sig s') /\ xmap s' = xmap s /\ rebin_background round crop q s (sig s') = Some (background s'))
          \/ (nav s' <> nav s /\ background s' = None /\ xmap s' = None
              /\ detector s' = Detector.with_pc (rebin_detector s (sig s')) (Detector.PCArray (nav s') (repeat (Detector.PC 0.5 0.5 0.5) (fold_right Nat.mul 1%nat (nav s'))))))).
Proof.
  intros Hp E. destruct (rebin_shape _ _ _ _ Hp E) as (fn & Ef & Lf & En & Eg & _ & _). revert E. unfold rebin, hs_rebin. rewrite Ef. cbn [bind].
  set (fy := asked q (fst (sig s)) _) in *. set (fx := asked q (snd (sig s)) _) in *.
  destruct (existsb _ _); [discriminate|]. cbn [bind fst snd].
  assert (Z : zip_with (new_size crop) (shape s) (fn ++ [fy; fx]) = nav s' ++ [fst (sig s'); snd (sig s')]).
  { unfold shape. rewrite zip_app by congruence. rewrite En, Eg. reflexivity. }
  assert (Ln : length (nav s') = length (nav s)) by (rewrite En; apply zip_length; congruence).
  rewrite Z. destruct (same _ (shape s)) eqn:Es.
  - intros E. left. injection E as <-. cbn. auto 6.
  - intros E. right. split.
    { intros [A B]. assert (T : same (nav s' ++ [fst (sig s'); snd (sig s')]) (shape s) = true) by (apply same_spec; unfold shape; now rewrite A, B). congruence. }
    assert (N2 : firstn (length (nav s)) (nav s' ++ [fst (sig s'); snd (sig s')]) = nav s').
    { rewrite firstn_app, Ln, Nat.sub_diag, firstn_O, app_nil_r. apply firstn_all2. lia. }
    assert (N0 : nth (length (nav s)) (nav s' ++ [fst (sig s'); snd (sig s')]) 0%nat = fst (sig s')).
    { rewrite app_nth2 by lia. rewrite Ln, Nat.sub_diag. reflexivity. }
    assert (N1 : nth (S (length (nav s))) (nav s' ++ [fst (sig s'); snd (sig s')]) 0%nat = snd (sig s')).
    { rewrite app_nth2 by lia. rewrite Ln. replace (S (length (nav s)) - length (nav s))%nat with 1%nat by lia. reflexivity. }
    rewrite N0, N1, N2 in E. replace (fst (sig s'), snd (sig s')) with (sig s') in E by (now destruct (sig s')).
    destruct (rebin_background _ _ _ _ (sig s')) as [b|] eqn:Eb; [|discriminate]. cbn [bind] in E.
    destruct (same (nav s') (nav s)) eqn:Ea.
    + apply same_spec in Ea. left. injection E as <-. cbn. auto.
    + right. split; [intros A; apply same_spec in A; congruence|]. injection E as <-. cbn. auto.
Qed.

(** A map: each new value is the sum of the old ones in it, in four directions; the new sizes are those asked for, whole pixels only unless
    crop is false.  Requests are in the order x and y of the map, x and y of the pattern. *)
Theorem C105_map q crop s s' r c : nav s = [r; c] -> filled s -> rebin round q crop s = Some s' ->
  let (fr, fc) := (asked q r 1, asked q c 0) in
  let (fy, fx) := (asked q (fst (sig s)) 3, asked q (snd (sig s)) 2) in
  (exists r' c', nav s' = [r'; c'] /\ sized crop r fr r' /\ sized crop c fc c')
  /\ sized crop (fst (sig s)) fy (fst (sig s')) /\ sized crop (snd (sig s)) fx (snd (sig s'))
  /\ forall i j y x, data s' [i; j; y; x]
       = round (sum_of r (fun k => sum_of c (fun l => share fr i k * share fc j l
                  * binned_pixel (fst (sig s)) (snd (sig s)) fy fx (fun u v => data s [k; l; u; v]) y x)))%R.
Proof.
  intros Hn Hp E. destruct (rebin_shape _ _ _ _ Hp E) as (fn & Ef & Lf & En & Eg & Ed & Hp').
  assert (F : fn = [asked q r 1; asked q c 0] /\ (0 < asked q r 1 /\ 0 < asked q c 0)%R
    /\ (0 < asked q (fst (sig s)) (S (length (nav s))) /\ 0 < asked q (snd (sig s)) (length (nav s)))%R).
  { destruct (factors_split _ _ _ _ _ _ eq_refl Hp Ef) as (fn' & L' & Efn & P1 & P0 & _ & _ & Hq).
    assert (fn' = fn) as ->. { apply app_inv_tail in Efn. auto. }
    split; [|split; [|auto]].
    - rewrite Hn in *. destruct q as [l|l]; cbn [factors length Nat.eqb shape asked] in *.
      + unfold shape in Ef. rewrite Hn in Ef. destruct (_ && _)%bool; [|discriminate]. destruct Hq as [L _].
        destruct l as [|a [|b [|u [|v [|]]]]]; try discriminate. cbn in Ef. injection Ef as Ef. destruct fn as [|f0 [|f1 [|]]]; try discriminate.
        cbn in Ef. injection Ef as <- <-. reflexivity.
      + unfold shape in Ef. rewrite Hn in Ef. destruct (_ && _)%bool; [|discriminate]. destruct Hq as [L _].
        destruct l as [|a [|b [|u [|v [|]]]]]; try discriminate. cbn in Ef. injection Ef as Ef. destruct fn as [|f0 [|f1 [|]]]; try discriminate.
        cbn in Ef. injection Ef as <- <-. reflexivity.
    - assert (1 <= r /\ 1 <= c)%nat as [Hr Hc].
      { split; apply Hp; unfold shape; rewrite Hn; cbn; auto. }
      apply lt_0_INR in Hr. apply lt_0_INR in Hc. rewrite Hn in Hq. destruct q as [l|l]; destruct Hq as [L P]; cbn [length] in L; rewrite Forall_forall in P; cbn [asked].
      + assert (1 <= nth 1 l 0 /\ 1 <= nth 0 l 0)%nat as [Q1 Q0] by (split; apply P, nth_In; lia).
        apply lt_0_INR in Q1. apply lt_0_INR in Q0. split; now apply Rdiv_lt_0_compat.
      + split; apply P, nth_In; lia. }
  destruct F as (-> & (Pr & Pc) & Py & Px). rewrite Hn in *. cbn [length] in *.
  assert (G : forall n, In n (nav s' ++ [fst (sig s'); snd (sig s')]) -> (1 <= n)%nat) by exact Hp'. rewrite En, Eg in G. cbn in G.
  split; [|split; [|split]].
  - exists (new_size crop r (asked q r 1)), (new_size crop c (asked q c 0)). split; [exact En|].
    split; apply new_size_sized; auto 6.
  - rewrite Eg. apply new_size_sized; auto 6.
  - rewrite Eg. apply new_size_sized; auto 6.
  - intros i j y x. rewrite Ed. f_equal. unfold shape. rewrite Hn. cbn [app binned]. rewrite total_sum. apply sum_ext. intros k _.
    rewrite total_sum, <- sum_scale. apply sum_ext. intros l _. rewrite !weight_share.
    change (total (fst (sig s)) _) with (binned [fst (sig s); snd (sig s)] [asked q (fst (sig s)) 3; asked q (snd (sig s)) 2] (fun z => data s (k :: l :: z)) [y; x]).
    rewrite binned_two. ring.
Qed.

(** Patterns are rebinned and the map is left as it is: a single pattern, a line scan or a map.  Points of the map, PCs and crystal map
    stay; each pattern is rebinned by itself; the static background is rebinned just like the patterns. *)
Theorem C105_pixels q crop s s' : filled s -> map_kept q s -> rebin round q crop s = Some s' ->
  let fy := asked q (fst (sig s)) (S (length (nav s))) in
  let fx := asked q (snd (sig s)) (length (nav s)) in
  nav s' = nav s /\ Detector.d_pc (detector s') = Detector.d_pc (detector s) /\ xmap s' = xmap s
  /\ sized crop (fst (sig s)) fy (fst (sig s')) /\ sized crop (snd (sig s)) fx (snd (sig s'))
  /\ (forall p y x, Forall2 (fun i n => i < n)%nat p (nav s) ->
        data s' (p ++ [y; x]) = round (binned_pixel (fst (sig s)) (snd (sig s)) fy fx (fun u v => data s (p ++ [u; v])) y x))
  /\ match background s, background s' with
     | Some b, Some b' => (sig s' <> sig s -> fst b' = [fst (sig s'); snd (sig s')] /\ forall y x, snd b' [y; x] = round (binned_pixel (fst (sig s)) (snd (sig s)) fy fx (fun u v => snd b [u; v]) y x))
                          /\ (sig s' = sig s -> b' = b)
     | None, None => True
     | _, _ => False
     end.
Proof.
  intros Hp Hk E fy fx. destruct (rebin_shape _ _ _ _ Hp E) as (fn & Ef & Lf & En & Eg & Ed & Hp'). fold fy fx in Ef, Eg, Ed.
  destruct (factors_split _ _ _ _ _ _ eq_refl Hp Ef) as (fn' & L' & Efn & P1 & P0 & Es & Hone & Hq). fold fy fx in Efn, P1, P0, Es.
  apply app_inv_tail in Efn. subst fn'. assert (fn = repeat 1%R (length (nav s))) as -> by (apply Hone; exact Hk).
  assert (Hnav : nav s' = nav s).
  { rewrite En. assert (P : forall n, In n (nav s) -> (1 <= n)%nat) by (intros n Hn; apply Hp, in_or_app; now left).
    clear - P. induction (nav s) as [|n l IH]; [reflexivity|]. unfold zip_with in *. cbn. f_equal.
    - cbn. apply new_size_exact; [lra|lra|]. apply P. now left.
    - apply IH. intros m Hm. apply P. now right. }
  assert (G : forall n, In n (nav s' ++ [fst (sig s'); snd (sig s')]) -> (1 <= n)%nat) by exact Hp'. rewrite Eg in G.
  assert (G1 : (1 <= new_size crop (fst (sig s)) fy)%nat) by (apply G, in_or_app; right; cbn; auto).
  assert (G2 : (1 <= new_size crop (snd (sig s)) fx)%nat) by (apply G, in_or_app; right; cbn; auto).
  split; [exact Hnav|].
  assert (At : Detector.d_pc (detector s') = Detector.d_pc (detector s) /\ xmap s' = xmap s
    /\ ((sig s' = sig s /\ background s' = background s) \/ (sig s' <> sig s /\ rebin_background round crop q s (sig s') = Some (background s')))).
  { destruct (rebin_attributes _ _ _ _ Hp E) as [(_ & H1 & H2 & H3 & H4)|(N & [(_ & H1 & H2 & H3)|(N' & _)])].
    - rewrite H2. auto.
    - rewrite H1. split; [reflexivity|]. split; [auto|]. right. split; [|auto]. intros A. apply N. auto.
    - contradiction. }
  destruct At as (A1 & A2 & A3). split; [exact A1|]. split; [exact A2|]. rewrite Eg. cbn [fst snd].
  split; [apply new_size_sized; auto|]. split; [apply new_size_sized; auto|]. split.
  - intros p y x Hpi. rewrite Ed. f_equal. unfold shape. rewrite binned_ones by exact Hpi. now rewrite binned_two.
  - rewrite <- Eg. destruct A3 as [[A3 A4]|[A3 A4]].
    + rewrite A4. destruct (background s); [|auto]. split; [contradiction|auto].
    + unfold rebin_background in A4. destruct (background s) as [b|].
      * destruct (same _ _) eqn:Esm.
        { apply same_spec in Esm. exfalso. apply A3. destruct (sig s'), (sig s). cbn in Esm. congruence. }
        unfold hs_rebin in A4. rewrite Es in A4. cbn [bind] in A4. destruct (existsb _ _); [discriminate|]. cbn [bind fst snd] in A4.
        injection A4 as <-. split; [|intros; contradiction]. intros _. split; [rewrite ?Eg; reflexivity|]. intros y x. cbn [snd]. f_equal. apply binned_two.
      * injection A4 as <-. exact I.
Qed.

(** A map that becomes smaller or larger: no background, no crystal map, and one PC per pattern, which says nothing. *)
Theorem C105_map_changed q crop s s' : filled s -> rebin round q crop s = Some s' -> nav s' <> nav s ->
  background s' = None /\ xmap s' = None
  /\ Detector.nav_shape (Detector.d_pc (detector s')) = nav s'
  /\ length (Detector.pcs (Detector.d_pc (detector s'))) = fold_right Nat.mul 1%nat (nav s')
  /\ forall p, In p (Detector.pcs (Detector.d_pc (detector s'))) -> p = Detector.PC 0.5 0.5 0.5.
Proof.
  intros Hp E N. destruct (rebin_attributes _ _ _ _ Hp E) as [(H & _)|(_ & [(H & _)|(_ & H1 & H2 & H3)])]; [contradiction|contradiction|].
  rewrite H3. cbn. split; [auto|]. split; [auto|]. split; [reflexivity|]. split; [apply repeat_length|]. intros p Hi. now apply repeat_spec in Hi.
Qed.

(** The detector has the shape of the patterns and its angles and pixel size are as before. *)
Theorem C105_detector q crop s s' : filled s -> rebin round q crop s = Some s' ->
  Detector.d_ny (detector s) = Z.of_nat (fst (sig s)) -> Detector.d_nx (detector s) = Z.of_nat (snd (sig s)) ->
  Detector.d_ny (detector s') = Z.of_nat (fst (sig s')) /\ Detector.d_nx (detector s') = Z.of_nat (snd (sig s'))
  /\ Detector.d_px_size (detector s') = Detector.d_px_size (detector s) /\ Detector.d_tilt (detector s') = Detector.d_tilt (detector s)
  /\ Detector.d_azimuthal (detector s') = Detector.d_azimuthal (detector s) /\ Detector.d_twist (detector s') = Detector.d_twist (detector s)
  /\ Detector.d_sample_tilt (detector s') = Detector.d_sample_tilt (detector s).
Proof.
  intros Hp E D1 D2. destruct (rebin_attributes _ _ _ _ Hp E) as [(_ & H1 & H2 & _)|(_ & [(_ & H & _)|(_ & _ & _ & H)])].
  - rewrite H1, H2. auto 8.
  - rewrite H. cbn. auto 8.
  - rewrite H. cbn. auto 8.
Qed.

(** A new shape is what is given, and it is the same as giving the factors. *)
Theorem C105_new_shape l crop s s' : filled s -> rebin round (NewShape l) crop s = Some s' ->
  nav s' = rev (firstn (length (nav s)) l)
  /\ l = firstn (length (nav s)) l ++ [snd (sig s'); fst (sig s')].
Proof.
  intros Hp E. destruct (rebin_shape _ _ _ _ Hp E) as (fn & Ef & Lf & En & Eg & _ & _).
  destruct (factors_split _ _ _ _ _ _ eq_refl Hp Ef) as (_ & _ & _ & _ & _ & _ & _ & L & P). rewrite Forall_forall in P.
  set (k := length (nav s)) in *. unfold factors in Ef. destruct (_ && _)%bool; [|discriminate]. rewrite (array_order_split k l 0%nat L) in Ef.
  assert (Lr : length (rev (firstn k l)) = k) by (rewrite rev_length, firstn_length_le; lia).
  unfold shape in Ef. rewrite zip_app in Ef by (unfold k in *; congruence).
  assert (Efn : zip_with (fun n m => INR n / INR m)%R (nav s) (rev (firstn k l)) = fn).
  { match type of Ef with Some (?a ++ ?b) = Some (?c ++ ?d) => assert (Q : a ++ b = c ++ d) by congruence; change b with d in Q; now apply app_inv_tail in Q end. }
  assert (D : forall n m, (1 <= n)%nat -> (1 <= m)%nat -> new_size crop n (INR n / INR m) = m).
  { intros n m Hn Hm. assert (0 < INR n)%R by (apply lt_0_INR; lia). assert (0 < INR m)%R by (apply lt_0_INR; lia).
    apply new_size_exact; [now apply Rdiv_lt_0_compat|field; lra|auto]. }
  split.
  - rewrite En, <- Efn. assert (Hn : forall n, In n (nav s) -> (1 <= n)%nat) by (intros n H; apply Hp, in_or_app; now left).
    assert (Hr : forall m, In m (rev (firstn k l)) -> (1 <= m)%nat).
    { intros m H. apply P. apply in_rev in H. rewrite <- (firstn_skipn k l). apply in_or_app. now left. }
    assert (Lr' : length (rev (firstn k l)) = length (nav s)) by exact Lr. clear - D Hn Hr Lr'. generalize dependent (rev (firstn k l)). clear k. revert Hn. generalize (nav s).
    induction l0 as [|n v IH]; intros Hn [|m w] Hr Lr; try discriminate; [reflexivity|].
    unfold zip_with in *. cbn. f_equal; [cbn; apply D; [apply Hn|apply Hr]; now left|].
    apply IH; [intros x H; apply Hn; now right|intros x H; apply Hr; now right|now injection Lr].
  - rewrite Eg. cbn [asked fst snd].
    assert (N1 : (1 <= nth (S k) l 0)%nat) by (apply P, nth_In; lia). assert (N0 : (1 <= nth k l 0)%nat) by (apply P, nth_In; lia).
    rewrite !D by (auto; apply Hp, in_or_app; right; cbn; auto).
    pose proof (array_order_split k l 0%nat L) as A. unfold array_order in A. apply app_inv_head in A.
    rewrite <- (firstn_skipn k l) at 1. f_equal. rewrite <- (rev_involutive (skipn k l)), A. reflexivity.
Qed.
Theorem C105_new_shape_as_factors l crop s : filled s -> length l = length (shape s) -> (forall m, In m l -> (1 <= m)%nat) ->
  rebin round (NewShape l) crop s
  = rebin round (Scale (map (fun p => INR (fst p) / INR (snd p))%R (combine (rev (nav s) ++ [snd (sig s); fst (sig s)]) l))) crop s.
Proof.
  intros Hp L P. set (k := length (nav s)). assert (Ls : length l = S (S k)) by (rewrite L; unfold shape; rewrite app_length; cbn; unfold k; lia).
  set (old := rev (nav s) ++ [snd (sig s); fst (sig s)]).
  assert (Lo : length old = length l) by (unfold old; rewrite app_length, rev_length; cbn; unfold k in *; lia).
  set (g := map (fun p => INR (fst p) / INR (snd p))%R (combine old l)).
  assert (Lg : length g = length l) by (unfold g; rewrite map_length, combine_length; lia).
  assert (Po : forall n, In n old -> (1 <= n)%nat).
  { intros n Hn. apply Hp. unfold shape. unfold old in Hn. apply in_app_or in Hn as [Hn|Hn]; apply in_or_app; [left; now apply in_rev|right; cbn in *; tauto]. }
  assert (Pos : forallb positive g = true).
  { apply forallb_forall. intros f Hf. unfold g in Hf. apply in_map_iff in Hf as ((n & m) & <- & Hi). cbn.
    assert (0 < INR n)%R by (apply lt_0_INR; apply in_combine_l in Hi; specialize (Po n Hi); lia).
    assert (0 < INR m)%R by (apply lt_0_INR; apply in_combine_r in Hi; specialize (P m Hi); lia).
    unfold positive. destruct (Rlt_dec 0 (INR n / INR m)); [auto|]. exfalso. apply n0. now apply Rdiv_lt_0_compat. }
  assert (Pl : forallb (Nat.ltb 0) l = true) by (apply forallb_forall; intros m Hm; apply Nat.ltb_lt; specialize (P m Hm); lia).
  assert (RC : forall (a : list nat) (b : list nat), length a = length b -> combine (rev a) (rev b) = rev (combine a b)).
  { induction a as [|x a IH]; intros [|y b] Lab; try discriminate; [reflexivity|]. cbn. injection Lab as Lab. rewrite <- IH by auto.
    assert (CA : forall (u u' : list nat) (v v' : list nat), length u = length v -> combine (u ++ u') (v ++ v') = combine u v ++ combine u' v').
    { induction u as [|z u IHu]; intros u' [|w v] v' Luv; try discriminate; [reflexivity|]. cbn. f_equal. apply IHu. now injection Luv. }
    rewrite CA by (now rewrite !rev_length). reflexivity. }
  assert (F : factors k (shape s) (NewShape l) = factors k (shape s) (Scale g)).
  { unfold factors. rewrite Lg, L, Nat.eqb_refl, Pl, Pos. cbn [andb]. f_equal.
    assert (A1 : firstn k g = map (fun p => INR (fst p) / INR (snd p))%R (combine (rev (nav s)) (firstn k l))).
    { unfold g, old. rewrite <- (firstn_skipn k l) at 1.
      rewrite firstn_map. f_equal. assert (Lf : length (rev (nav s)) = length (firstn k l)) by (rewrite rev_length, firstn_length_le by lia; reflexivity).
      assert (CA : forall (u u' v v' : list nat), length u = length v -> combine (u ++ u') (v ++ v') = combine u v ++ combine u' v').
      { induction u as [|z u IHu]; intros u' [|w v] v' Luv; try discriminate; [reflexivity|]. cbn. f_equal. apply IHu. now injection Luv. }
      rewrite CA by exact Lf. rewrite firstn_app, combine_length, <- Lf, Nat.min_id, rev_length. fold k. rewrite Nat.sub_diag, firstn_O, app_nil_r.
      apply firstn_all2. rewrite combine_length, <- Lf, rev_length. unfold k. lia. }
    rewrite (array_order_split k g 0%R) by lia. rewrite A1, (array_order_split k l 0%nat Ls). unfold shape.
    rewrite zip_app by (rewrite rev_length, firstn_length_le by lia; reflexivity).
    assert (N : forall i, (i < S (S k))%nat -> nth i g 0%R = (INR (nth i old 0%nat) / INR (nth i l 0%nat))%R).
    { intros i Hi. rewrite (nth_indep g 0%R ((fun p => INR (fst p) / INR (snd p))%R (0%nat, 0%nat))) by lia. unfold g.
      rewrite (map_nth (fun p => INR (fst p) / INR (snd p))%R (combine old l) (0%nat, 0%nat) i), combine_nth by lia. reflexivity. }
    f_equal.
    - unfold zip_with. rewrite <- map_rev, <- RC, rev_involutive by (rewrite rev_length, firstn_length_le by lia; reflexivity). reflexivity.
    - unfold zip_with. cbn [combine map fst snd]. rewrite !N by lia. unfold old.
      rewrite !app_nth2 by (rewrite rev_length; fold k; lia). rewrite !rev_length. fold k. rewrite Nat.sub_diag. replace (S k - k)%nat with 1%nat by lia. reflexivity. }
  unfold rebin, hs_rebin. fold k. rewrite F. destruct (factors k (shape s) (Scale g)) as [fs|] eqn:Ef; [|reflexivity]. cbn [bind].
  destruct (existsb _ _); [reflexivity|]. cbn [bind fst snd]. destruct (same _ _); [reflexivity|].
  assert (Bk : forall sg, rebin_background round crop (NewShape l) s sg = rebin_background round crop (Scale g) s sg); [|now rewrite Bk].
  intros sg. unfold rebin_background. destruct (background s); [|reflexivity]. destruct (same _ _); [reflexivity|]. fold k.
  unfold hs_rebin. destruct (factors_split _ _ _ _ _ _ eq_refl Hp Ef) as (fn1 & L1 & E1 & _ & _ & S1 & _).
  assert (F2 : factors k (shape s) (NewShape l) = Some fs) by congruence. destruct (factors_split _ _ _ _ _ _ eq_refl Hp F2) as (fn2 & L2 & E2 & _ & _ & S2 & _).
  fold k in S1, S2. rewrite S1, S2. fold k in E1, E2, L1, L2. rewrite E1 in E2.
  assert (Q : fn1 = fn2 /\ [asked (Scale g) (fst (sig s)) (S k); asked (Scale g) (snd (sig s)) k] = [asked (NewShape l) (fst (sig s)) (S k); asked (NewShape l) (snd (sig s)) k]).
  { clear - E2 L1 L2. rewrite <- L2 in L1. clear L2. revert fn2 L1 E2. induction fn1 as [|a u IH]; intros [|b v] L E; try discriminate; [auto|].
    cbn in E. injection E as -> E. injection L as L. destruct (IH v L E) as [-> ->]. auto. }
  destruct Q as [_ ->]. reflexivity.
Qed.

(** ** The detector *)

(** Integer binning and a new shape: the detector is as high and as wide as before exactly if the binning becomes the same integer in
    both directions. *)
Theorem C105_size_kept_iff q crop s s' b : filled s -> rebin round q crop s = Some s' -> (nav s' <> nav s \/ sig s' <> sig s) ->
  Detector.d_ny (detector s) = Z.of_nat (fst (sig s)) -> Detector.d_nx (detector s) = Z.of_nat (snd (sig s)) ->
  Detector.d_binning (detector s) = IZR b -> Detector.d_px_size (detector s) <> 0%R ->
  (Detector.height (detector s') = Detector.height (detector s) /\ Detector.width (detector s') = Detector.width (detector s)
   <-> exists k, (b * Z.of_nat (fst (sig s)) = k * Z.of_nat (fst (sig s')) /\ b * Z.of_nat (snd (sig s)) = k * Z.of_nat (snd (sig s')))%Z).
Proof.
  intros Hp E N D1 D2 Hb Hpx. destruct (C105_detector _ _ _ _ Hp E D1 D2) as (E1 & E2 & E3 & _).
  destruct (rebin_shape _ _ _ _ Hp E) as (_ & _ & _ & _ & _ & _ & Hp').
  assert (B : Detector.d_binning (detector s') = SignalHistory.rebinned_binning (fst (sig s)) (snd (sig s)) (fst (sig s')) (snd (sig s')) (detector s)).
  { destruct (rebin_attributes _ _ _ _ Hp E) as [(A1 & A2 & _)|(_ & [(_ & H & _)|(_ & _ & _ & H)])]; [exfalso; tauto|rewrite H; reflexivity|rewrite H; reflexivity]. }
  assert (G1 : (1 <= fst (sig s'))%nat) by (apply Hp', in_or_app; right; cbn; auto).
  assert (G2 : (1 <= snd (sig s'))%nat) by (apply Hp', in_or_app; right; cbn; auto).
  unfold Detector.height, Detector.width, Detector.nrows, Detector.ncols. rewrite E1, E2, E3, D1, D2, Hb, B.
  unfold SignalHistory.rebinned_binning. rewrite Hb, DetectorProofs.trunc_IZR.
  set (ny := Z.of_nat (fst (sig s))). set (nx := Z.of_nat (snd (sig s))). set (my := Z.of_nat (fst (sig s'))) in *. set (mx := Z.of_nat (snd (sig s'))) in *.
  assert (My : (0 < my)%Z) by lia. assert (Mx : (0 < mx)%Z) by lia. set (px := Detector.d_px_size (detector s)) in *.
  assert (H : forall k, (IZR my * px * IZR k = IZR ny * px * IZR b /\ IZR mx * px * IZR k = IZR nx * px * IZR b)%R <-> (b * ny = k * my /\ b * nx = k * mx)%Z).
  { intros k. split.
    - intros [H1 H2]. split; apply eq_IZR; rewrite !mult_IZR; apply Rmult_eq_reg_l with px; auto; lra.
    - intros [H1 H2]. apply (f_equal IZR) in H1, H2. rewrite !mult_IZR in *. split.
      + transitivity (px * (IZR k * IZR my))%R; [ring|rewrite <- H1; ring].
      + transitivity (px * (IZR k * IZR mx))%R; [ring|rewrite <- H2; ring]. }
  destruct ((b * ny * mx =? b * nx * my)%Z && ((b * ny) mod my =? 0)%Z)%bool eqn:T.
  - apply andb_true_iff in T as [T1 T2]. apply Z.eqb_eq in T1, T2. rewrite H.
    assert (Q : (b * ny = b * ny / my * my)%Z) by (pose proof (Z.div_mod (b * ny) my); lia).
    split; [intros [H1 H2]; exists (b * ny / my)%Z; auto|]. intros _. split; [exact Q|].
    apply Z.mul_reg_r with my; [lia|]. rewrite <- T1. rewrite Q at 1. ring.
  - rewrite (H 1%Z). split; [intros; exists 1%Z; auto|]. intros (k & K1 & K2). exfalso.
    assert (T' : ((b * ny * mx =? b * nx * my)%Z && ((b * ny) mod my =? 0)%Z)%bool = true); [|congruence].
    apply andb_true_iff. split; apply Z.eqb_eq; [rewrite K1, K2; ring|]. rewrite K1. apply Z.mod_mul. lia.
Qed.

(** Position (y, x) on the old patterns is (y / fy, x / fx) on the new ones.  It has the same gnomonic coordinates exactly if the two
    factors are the same and no pixels are left over or missing. *)
Theorem C105_gnomonic_kept_iff q crop s s' p : filled s -> rebin round q crop s = Some s' ->
  Detector.d_ny (detector s) = Z.of_nat (fst (sig s)) -> Detector.d_nx (detector s) = Z.of_nat (snd (sig s)) ->
  Detector.pcz p <> 0%R -> Detector.pcx p <> 0%R ->
  let fy := asked q (fst (sig s)) (S (length (nav s))) in
  let fx := asked q (snd (sig s)) (length (nav s)) in
  (forall y x, Detector.to_gnomonic (detector s') p (y / fy, x / fx)%R = Detector.to_gnomonic (detector s) p (y, x))
  <-> fy = fx /\ (INR (fst (sig s')) * fy = INR (fst (sig s)))%R /\ (INR (snd (sig s')) * fx = INR (snd (sig s)))%R.
Proof.
  intros Hp E D1 D2 Hz Hx fy fx. destruct (C105_detector _ _ _ _ Hp E D1 D2) as (E1 & E2 & _).
  destruct (rebin_shape _ _ _ _ Hp E) as (fn & Ef & _ & _ & _ & _ & Hp').
  destruct (factors_split _ _ _ _ _ _ eq_refl Hp Ef) as (_ & _ & _ & Pu & Pv & _). fold fy in Pu. fold fx in Pv.
  unfold Detector.to_gnomonic, Detector.apply_factors, Detector.pix_to_gn, Detector.x_max, Detector.x_min, Detector.y_max,
    Detector.y_min, Detector.aspect_ratio, Detector.nrows, Detector.ncols.
  rewrite D1, D2, E1, E2. cbn [fst snd Detector.m_x Detector.m_y Detector.c_x Detector.c_y]. rewrite <- !INR_IZR_INZ.
  assert (NZ : forall n, (1 <= n)%nat -> INR n <> 0%R) by (intros n H; apply not_0_INR; lia).
  assert (Ha : INR (fst (sig s)) <> 0%R) by (apply NZ, Hp, in_or_app; right; cbn; auto).
  assert (Hb : INR (snd (sig s)) <> 0%R) by (apply NZ, Hp, in_or_app; right; cbn; auto).
  assert (Ha' : INR (fst (sig s')) <> 0%R) by (apply NZ, Hp', in_or_app; right; cbn; auto).
  assert (Hb' : INR (snd (sig s')) <> 0%R) by (apply NZ, Hp', in_or_app; right; cbn; auto).
  set (a := INR (fst (sig s))) in *. set (b := INR (snd (sig s))) in *. set (a' := INR (fst (sig s'))) in *. set (b' := INR (snd (sig s'))) in *.
  clearbody a b a' b'. set (u := fy) in *. set (v := fx) in *. clearbody u v.
  assert (Hu : u <> 0%R) by lra. assert (Hv : v <> 0%R) by lra.
  replace (a - 1 + 1)%R with a by ring. replace (b - 1 + 1)%R with b by ring. replace (a' - 1 + 1)%R with a' by ring. replace (b' - 1 + 1)%R with b' by ring.
  set (q' := Detector.pcz p) in *. set (X0 := Detector.pcx p) in *. set (Y := Detector.pcy p).
  split.
  - intros H. pose proof (H 1%R 0%R) as H1. pose proof (H 0%R 1%R) as H2. pose proof (H 0%R 0%R) as H0.
    injection H1 as K1 _. injection H2 as _ K2. injection H0 as _ K0.
    assert (M1 : (a' * u = a)%R).
    { assert (M : (1 / (u * a') = 1 / a)%R).
      { assert (K : ((- (1 - Y) / q' - Y / q') / a' * (1 / u) + Y / q' - Y / q' = (- (1 - Y) / q' - Y / q') / a * 1 + Y / q' - Y / q')%R) by (rewrite K1; reflexivity).
        apply Rmult_eq_reg_l with (- (1 / q'))%R; [|apply Ropp_neq_0_compat; unfold Rdiv; rewrite Rmult_1_l; now apply Rinv_neq_0_compat].
        transitivity ((- (1 - Y) / q' - Y / q') / a' * (1 / u) + Y / q' - Y / q')%R; [field; auto|]. rewrite K. field; auto. }
      assert (M' : ((u * a') * (1 / (u * a')) * a = (u * a') * (1 / a) * a)%R) by (rewrite M; reflexivity).
      assert (L1 : ((u * a') * (1 / (u * a')) * a = a)%R) by (field; auto). assert (L2 : ((u * a') * (1 / a) * a = a' * u)%R) by (field; auto).
      congruence. }
    assert (M0 : (b' / a' = b / a)%R).
    { apply Rmult_eq_reg_l with (- (X0 / q'))%R.
      - transitivity ((b' / a' * (1 - X0) / q' - - (b' / a') * (X0 / q')) / b' * (0 / v) + - (b' / a') * (X0 / q'))%R; [field; auto|].
        rewrite K0. field; auto.
      - apply Ropp_neq_0_compat. unfold Rdiv. apply Rmult_integral_contrapositive_currified; [exact Hx|now apply Rinv_neq_0_compat]. }
    assert (M2 : (a' * v = a)%R).
    { assert (M : (1 / (v * a') = 1 / a)%R).
      { apply Rmult_eq_reg_l with (1 / q')%R; [|unfold Rdiv; rewrite Rmult_1_l; now apply Rinv_neq_0_compat].
        transitivity ((b' / a' * (1 - X0) / q' - - (b' / a') * (X0 / q')) / b' * (1 / v) + - (b' / a') * (X0 / q') + b' / a' * (X0 / q'))%R; [field; auto|].
        rewrite K2, M0. field; auto. }
      assert (M' : ((v * a') * (1 / (v * a')) * a = (v * a') * (1 / a) * a)%R) by (rewrite M; reflexivity).
      assert (L1 : ((v * a') * (1 / (v * a')) * a = a)%R) by (field; auto). assert (L2 : ((v * a') * (1 / a) * a = a' * v)%R) by (field; auto).
      congruence. }
    assert (UV : u = v) by (apply Rmult_eq_reg_l with a'; [congruence|auto]).
    split; [exact UV|]. split; [exact M1|]. subst v.
    assert (L : (b' * a = b * a')%R).
    { assert (L1 : (b' / a' * (a * a') = b' * a)%R) by (field; auto). assert (L2 : (b / a * (a * a') = b * a')%R) by (field; auto). rewrite <- L1, <- L2, M0. reflexivity. }
    apply Rmult_eq_reg_r with a'; [|auto]. transitivity (b' * (a' * u))%R; [ring|]. rewrite M1. exact L.
  - intros (<- & My & Mx) y x. rewrite <- My, <- Mx. f_equal; field; repeat split; auto.
Qed.

(** A new shape leaves nothing over: coordinates are kept exactly if the pixels stay as square as they were. *)
Corollary C105_gnomonic_kept_new_shape l crop s s' p : filled s -> rebin round (NewShape l) crop s = Some s' ->
  Detector.d_ny (detector s) = Z.of_nat (fst (sig s)) -> Detector.d_nx (detector s) = Z.of_nat (snd (sig s)) ->
  Detector.pcz p <> 0%R -> Detector.pcx p <> 0%R ->
  let fy := (INR (fst (sig s)) / INR (fst (sig s')))%R in
  let fx := (INR (snd (sig s)) / INR (snd (sig s')))%R in
  (forall y x, Detector.to_gnomonic (detector s') p (y / fy, x / fx)%R = Detector.to_gnomonic (detector s) p (y, x)) <-> fy = fx.
Proof.
  intros Hp E D1 D2 Hz Hx fy fx. destruct (C105_new_shape _ _ _ _ Hp E) as [_ L].
  destruct (rebin_shape _ _ _ _ Hp E) as (fn & _ & _ & _ & _ & _ & Hp').
  pose proof (C105_gnomonic_kept_iff _ _ _ _ p Hp E D1 D2 Hz Hx) as Q. cbn [asked] in Q.
  assert (A : nth (S (length (nav s))) l 0%nat = fst (sig s') /\ nth (length (nav s)) l 0%nat = snd (sig s')).
  { assert (Lf : length (firstn (length (nav s)) l) = length (nav s)).
    { pose proof (f_equal (@length nat) L) as LL. rewrite app_length in LL. cbn in LL. pose proof (firstn_length (length (nav s)) l). lia. }
    rewrite L. rewrite !app_nth2; rewrite !Lf; try lia. rewrite Nat.sub_diag. replace (S (length (nav s)) - length (nav s))%nat with 1%nat by lia. auto. }
  destruct A as [A1 A2]. rewrite A1, A2 in Q. fold fy fx in Q. rewrite Q. split; [tauto|]. intros H. split; [exact H|].
  assert (NZ : forall n, (1 <= n)%nat -> INR n <> 0%R) by (intros n Hn; apply not_0_INR; lia).
  unfold fy, fx. split; field; apply NZ, Hp', in_or_app; right; cbn; auto.
Qed.

(** ** What does not hold *)

(** Factors near 1 may leave all sizes as they were.  Then nothing is changed but the patterns: the detector and so all coordinates, the
    static background and the crystal map stay. *)
Theorem C105_same_shape_refuted q crop s s' : filled s -> rebin round q crop s = Some s' -> nav s' = nav s -> sig s' = sig s ->
  detector s' = detector s /\ background s' = background s /\ xmap s' = xmap s.
Proof. intros Hp E En Es. destruct (rebin_attributes _ _ _ _ Hp E) as [(_ & _ & H)|(N & _)]; [exact H|tauto]. Qed.
(** In particular, if the factors are not 1, the coordinates of the pixels are not kept. *)
Theorem C105_same_shape_coordinates_refuted q crop s s' p : filled s -> rebin round q crop s = Some s' -> sig s' = sig s ->
  Detector.d_ny (detector s) = Z.of_nat (fst (sig s)) -> Detector.d_nx (detector s) = Z.of_nat (snd (sig s)) ->
  Detector.pcz p <> 0%R -> Detector.pcx p <> 0%R ->
  let fy := asked q (fst (sig s)) (S (length (nav s))) in
  let fx := asked q (snd (sig s)) (length (nav s)) in
  fy <> 1%R \/ fx <> 1%R ->
  ~ (forall y x, Detector.to_gnomonic (detector s') p (y / fy, x / fx)%R = Detector.to_gnomonic (detector s) p (y, x)).
Proof.
  intros Hp E Es D1 D2 Hz Hx fy fx N H. apply (C105_gnomonic_kept_iff _ _ _ _ p Hp E D1 D2 Hz Hx) in H as (_ & H1 & H2). fold fy in H1. fold fx in H2. rewrite Es in H1, H2.
  assert (P1 : (0 < INR (fst (sig s)))%R) by (apply lt_0_INR; assert (1 <= fst (sig s))%nat by (apply Hp, in_or_app; right; cbn; auto); lia).
  assert (P2 : (0 < INR (snd (sig s)))%R) by (apply lt_0_INR; assert (1 <= snd (sig s))%nat by (apply Hp, in_or_app; right; cbn; auto); lia).
  destruct N as [N|N]; apply N; [apply Rmult_eq_reg_l with (INR (fst (sig s)))|apply Rmult_eq_reg_l with (INR (snd (sig s)))]; lra.
Qed.

(** With out, the patterns are the same, but out keeps its detector, background and crystal map. *)
Theorem C105_out_refuted q crop s s' out out' : filled s -> rebin round q crop s = Some s' -> rebin_out round q crop s out = Some out' ->
  (forall i, data out' i = data s' i) /\ shape out' = shape s'
  /\ detector out' = detector out /\ background out' = background out /\ xmap out' = xmap out.
Proof.
  intros Hp E Eo. destruct (rebin_shape _ _ _ _ Hp E) as (fn & Ef & Lf & En & Eg & Ed & _). unfold rebin_out, hs_rebin in Eo. rewrite Ef in Eo. cbn [bind] in Eo.
  destruct (existsb _ _); [discriminate|]. cbn [bind fst snd] in Eo. destruct (same _ _) eqn:Es; [|discriminate]. apply same_spec in Es.
  injection Eo as <-. cbn [data detector background xmap]. split; [intros i; now rewrite Ed|]. split; [|auto].
  unfold shape at 1. cbn [nav sig]. fold (shape out). rewrite <- Es. unfold shape. rewrite zip_app by congruence. rewrite En, Eg. reflexivity.
Qed.
End Calls.

(** ** Intensities *)

(** Nothing is lost: if no pixels are left over, as for every new shape, the intensities of a new pattern add up to those of the old one
    (before they are converted to the type of the patterns). *)
Theorem C105_intensity_kept {X} q crop (s s' : signal X) p : filled s -> map_kept q s -> rebin (fun x => x) q crop s = Some s' ->
  Forall2 (fun i n => i < n)%nat p (nav s) ->
  (INR (fst (sig s')) * asked q (fst (sig s)) (S (length (nav s))) = INR (fst (sig s)))%R ->
  (INR (snd (sig s')) * asked q (snd (sig s)) (length (nav s)) = INR (snd (sig s)))%R ->
  sum_of (fst (sig s')) (fun y => sum_of (snd (sig s')) (fun x => data s' (p ++ [y; x])))
  = sum_of (fst (sig s)) (fun y => sum_of (snd (sig s)) (fun x => data s (p ++ [y; x]))).
Proof.
  intros Hp Hk E Hi Ny Nx. destruct (rebin_shape _ _ _ _ _ Hp E) as (fn & Ef & _).
  destruct (factors_split _ _ _ _ _ _ eq_refl Hp Ef) as (_ & _ & _ & Py & Px & _).
  destruct (C105_pixels _ _ _ _ _ Hp Hk E) as (_ & _ & _ & _ & _ & D & _).
  set (fy := asked q (fst (sig s)) _) in *. set (fx := asked q (snd (sig s)) _) in *.
  set (ny := fst (sig s)) in *. set (nx := snd (sig s)) in *. set (my := fst (sig s')) in *. set (mx := snd (sig s')) in *.
  set (a := fun u v => data s (p ++ [u; v])).
  transitivity (sum_of my (fun y => sum_of mx (fun x => sum_of ny (fun u => sum_of nx (fun v => share fy y u * share fx x v * a u v)))))%R.
  { apply sum_ext. intros y _. apply sum_ext. intros x _. rewrite D by exact Hi. reflexivity. }
  transitivity (sum_of my (fun y => sum_of ny (fun u => share fy y u * sum_of nx (fun v => a u v))))%R.
  { apply sum_ext. intros y _. rewrite sum_swap. apply sum_ext. intros u _. rewrite sum_swap, <- sum_scale. apply sum_ext. intros v Hv.
    rewrite (sum_ext mx _ (fun x => (share fy y u * a u v) * share fx x v)%R) by (intros; ring).
    rewrite sum_scale, (shares_all fx mx nx v) by auto. ring. }
  rewrite sum_swap. apply sum_ext. intros u Hu.
  rewrite (sum_ext my _ (fun y => sum_of nx (fun v => a u v) * share fy y u)%R) by (intros; ring).
  rewrite sum_scale, (shares_all fy my ny u) by auto. unfold a. ring.
Qed.

Print Assumptions C105_map.
Print Assumptions C105_pixels.
Print Assumptions C105_new_shape_as_factors.
Print Assumptions C105_gnomonic_kept_iff.
Print Assumptions C105_intensity_kept.

Module Examples.
Definition det (ny nx : Z) (b : R) : Detector.detector := Detector.Det ny nx 70 b 0 0 0 70 (Detector.PCArray [1%nat] [Detector.PC 0.4 0.7 0.6]).
(** A map of 3 rows and 2 columns, with patterns of 4 rows and 6 columns. *)
Definition map46 : signal nat :=
  Signal [3%nat; 2%nat] (4%nat, 6%nat) (fun i => INR (fold_right Nat.add 0%nat i)) (det 4 6 2) (Some ([4%nat; 6%nat], fun _ => 1%R)) (Some 7%nat).
Definition line55 : signal nat := Signal [3%nat] (5%nat, 5%nat) (fun _ => 1%R) (det 5 5 1) (Some ([5%nat; 5%nat], fun _ => 1%R)) (Some 7%nat).
Lemma filled46 : filled map46.
Proof. intros n H. cbn in H. lia. Qed.
Lemma filled55 : filled line55.
Proof. intros n H. cbn in H. lia. Qed.
Lemma new_size_of crop n f m : (0 < f)%R -> (1 <= m)%nat -> sized crop n f m -> new_size crop n f = m.
Proof.
  intros Hf Hm H. unfold new_size. set (q := (INR n / f)%R). assert (Hq : (INR n = q * f)%R) by (unfold q; field; lra). unfold sized in H. rewrite Hq in H. destruct crop.
  - pose proof (floor_spec q) as F. rewrite plus_INR in H. cbn [INR] in H.
    assert (A : (INR m <= q)%R) by (apply Rmult_le_reg_r with f; lra). assert (B : (q < INR m + 1)%R) by (apply Rmult_lt_reg_r with f; lra).
    rewrite INR_IZR_INZ in A, B. assert (A' : (IZR (Z.of_nat m) < IZR (Int_part q) + 1)%R) by lra. assert (B' : (IZR (Int_part q) < IZR (Z.of_nat m) + 1)%R) by lra.
    rewrite <- plus_IZR in A', B'. apply lt_IZR in A', B'. lia.
  - pose proof (floor_spec (- q)) as F.
    assert (A : (INR m - 1 < q)%R) by (apply Rmult_lt_reg_r with f; lra). assert (B : (q <= INR m)%R) by (apply Rmult_le_reg_r with f; lra).
    rewrite INR_IZR_INZ in A, B. assert (A' : (IZR (Int_part (- q)) < - IZR (Z.of_nat m) + 1)%R) by lra. assert (B' : (- IZR (Z.of_nat m) < IZR (Int_part (- q)) + 1)%R) by lra.
    rewrite <- opp_IZR, <- plus_IZR in A'. rewrite <- opp_IZR, <- plus_IZR in B'. apply lt_IZR in A', B'. lia.
Qed.
(** 4 x 6 pixels become 2 x 3, the binning is doubled and the map is left; and a new shape of the map. *)
Example C105_case : exists s', rebin (fun x => x) (NewShape [2; 3; 3; 2]%nat) true map46 = Some s'
  /\ map_kept (NewShape [2; 3; 3; 2]%nat) map46 /\ sig s' = (2, 3)%nat /\ Detector.d_binning (detector s') = 4%R.
Proof.
  assert (D : forall n m, (1 <= n)%nat -> (1 <= m)%nat -> new_size true n (INR n / INR m) = m).
  { intros n m Hn Hm. assert (0 < INR n)%R by (apply lt_0_INR; lia). assert (0 < INR m)%R by (apply lt_0_INR; lia).
    apply new_size_exact; [now apply Rdiv_lt_0_compat|field; lra|auto]. }
  unfold rebin, hs_rebin. cbn [factors length shape map46 nav sig fst snd app Nat.eqb forallb Nat.ltb Nat.leb andb array_order firstn skipn rev bind].
  unfold zip_with. cbn [combine map fst snd]. rewrite ?(D 3%nat 3%nat), ?(D 2%nat 2%nat), ?(D 4%nat 2%nat), ?(D 6%nat 3%nat) by lia. cbn [existsb Nat.eqb orb bind fst snd].
  destruct (same _ _) eqn:E1; [apply same_spec in E1; discriminate E1|]. cbn [firstn nth length].
  unfold rebin_background. cbn [map46 background fst snd sig nav length signal_part rev app map nth].
  destruct (same [2%nat; 3%nat] _) eqn:E2; [apply same_spec in E2; discriminate E2|]. unfold hs_rebin. cbn [factors length Nat.eqb forallb Nat.ltb Nat.leb andb array_order firstn skipn rev bind app].
  unfold zip_with. cbn [combine map fst snd]. rewrite ?(D 3%nat 3%nat), ?(D 2%nat 2%nat), ?(D 4%nat 2%nat), ?(D 6%nat 3%nat) by lia. cbn [existsb Nat.eqb orb bind fst snd].
  destruct (same [3%nat; 2%nat] [3%nat; 2%nat]) eqn:E3; [|match type of E3 with same ?a ?b = _ => assert (T : same a b = true) by (now apply same_spec); congruence end]. eexists. split; [reflexivity|]. split; [reflexivity|]. split; [reflexivity|].
  cbn [detector rebin_detector Detector.d_binning sig map46 fst snd det]. unfold SignalHistory.rebinned_binning. cbn [Detector.d_binning det].
  rewrite (DetectorProofs.trunc_IZR 2). reflexivity.
Qed.
(** Factors of 6 / 5 without crop: 5 x 5 pixels stay 5 x 5, but the first pixel is 36 / 25 of what it was, and the background is as before. *)
Example C105_same_shape_case : exists s', rebin (fun x => x) (Scale [1; 6 / 5; 6 / 5]%R) false line55 = Some s'
  /\ nav s' = nav line55 /\ sig s' = sig line55 /\ asked (Scale [1; 6 / 5; 6 / 5]%R) 5 2 <> 1%R
  /\ data s' [0; 0; 0]%nat = (36 / 25)%R /\ data line55 [0; 0; 0]%nat = 1%R /\ background s' = background line55.
Proof.
  assert (P : forallb positive [1; 6 / 5; 6 / 5]%R = true).
  { apply forallb_forall. intros f Hf. unfold positive. destruct (Rlt_dec 0 f); [auto|]. exfalso. cbn in Hf. lra. }
  assert (N3 : new_size false 3 1 = 3%nat) by (apply new_size_of; [lra|lia|unfold sized; cbn; lra]).
  assert (N5 : new_size false 5 (6 / 5) = 5%nat) by (apply new_size_of; [lra|lia|unfold sized; cbn; lra]).
  unfold rebin, hs_rebin. cbn [factors length shape line55 nav sig fst snd app Nat.eqb]. rewrite P. cbn [andb array_order firstn skipn rev app bind].
  unfold zip_with. cbn [combine map fst snd]. rewrite N3, N5. cbn [existsb Nat.eqb orb bind fst snd].
  destruct (same _ _) eqn:E1; [|match type of E1 with same ?a ?b = _ => assert (T : same a b = true) by (now apply same_spec); congruence end]. eexists. split; [reflexivity|]. cbn [nav sig data background asked nth].
  split; [reflexivity|]. split; [reflexivity|]. split; [lra|]. split; [|split; reflexivity].
  cbn [binned total line55 data]. unfold weight. cbn [INR].
  repeat match goal with |- context [Rmin ?a ?b] => first [rewrite (Rmin_left a b) by lra|rewrite (Rmin_right a b) by lra] end.
  repeat match goal with |- context [Rmax ?a ?b] => first [rewrite (Rmax_left a b) by lra|rewrite (Rmax_right a b) by lra] end. lra.
Qed.
(** Rebinning into a signal with another binning: it keeps it. *)
Definition out23 : signal nat := Signal [3%nat; 2%nat] (2%nat, 3%nat) (fun _ => 0%R) (det 2 3 1) None None.
Example C105_out_case : exists out', rebin_out (fun x => x) (NewShape [2; 3; 3; 2]%nat) true map46 out23 = Some out' /\ Detector.d_binning (detector out') = 1%R.
Proof.
  assert (D : forall n m, (1 <= n)%nat -> (1 <= m)%nat -> new_size true n (INR n / INR m) = m).
  { intros n m Hn Hm. assert (0 < INR n)%R by (apply lt_0_INR; lia). assert (0 < INR m)%R by (apply lt_0_INR; lia).
    apply new_size_exact; [now apply Rdiv_lt_0_compat|field; lra|auto]. }
  unfold rebin_out, hs_rebin. cbn [factors length shape map46 nav sig fst snd app Nat.eqb forallb Nat.ltb Nat.leb andb array_order firstn skipn rev bind].
  unfold zip_with. cbn [combine map fst snd]. rewrite ?(D 3%nat 3%nat), ?(D 2%nat 2%nat), ?(D 4%nat 2%nat), ?(D 6%nat 3%nat) by lia. cbn [existsb Nat.eqb orb bind fst snd].
  destruct (same _ _) eqn:E1; [|match type of E1 with same ?a ?b = _ => assert (T : same a b = true) by (now apply same_spec); congruence end]. eexists. split; reflexivity.
Qed.
End Examples.
