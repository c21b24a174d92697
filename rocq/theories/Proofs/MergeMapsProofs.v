From Coq Require Import String List Arith ZArith QArith Bool Lia Lqa Permutation.
From Verif Require Import Model.MergeMaps Spec.Merging Proofs.ListLemmas.
From Verif Require Model.DictIndex.
Import ListNotations.
Local Open Scope nat_scope.

(** ** Lists *)

Lemma all_some_map {A} (l : list (option A)) r : all_some l = Some r <-> l = map Some r.
Proof.
  revert r. induction l as [|x l IH]; intros r; cbn [all_some].
  - split; [intros H; injection H as <-; reflexivity|destruct r; [reflexivity|discriminate]].
  - destruct x as [a|].
    + destruct (all_some l) as [r'|].
      * split; [intros H; injection H as <-; cbn; f_equal; apply IH; reflexivity|].
        destruct r as [|b r]; [discriminate|]. cbn. intros H. injection H as <- H. apply IH in H. congruence.
      * split; [discriminate|]. destruct r as [|b r]; [discriminate|]. cbn. intros H. injection H as <- H. apply IH in H. discriminate.
    + split; [discriminate|]. destruct r; discriminate.
Qed.

Lemma all_some_none {A} (l : list (option A)) : all_some l = None <-> In None l.
Proof.
  induction l as [|[a|] l IH]; cbn [all_some In].
  - split; [discriminate|tauto].
  - destruct (all_some l) as [r|].
    + split; [discriminate|]. intros [H|H]; [discriminate|]. apply IH in H. discriminate.
    + split; [intros _; right; apply IH; reflexivity|reflexivity].
  - split; auto.
Qed.

Lemma all_some_length {A} (l : list (option A)) r : all_some l = Some r -> length r = length l.
Proof. intros H. apply all_some_map in H. subst l. rewrite map_length. reflexivity. Qed.

Lemma all_some_nth {A} (l : list (option A)) r i : all_some l = Some r -> nth_error l i = option_map Some (nth_error r i).
Proof. intros H. apply all_some_map in H. subst l. apply nth_error_map. Qed.

Lemma nth_error_combine {A B} (l : list A) (m : list B) : forall i,
  nth_error (combine l m) i = match nth_error l i, nth_error m i with Some a, Some b => Some (a, b) | _, _ => None end.
Proof.
  revert m. induction l as [|a l IH]; intros [|b m] [|i]; cbn; try reflexivity.
  - destruct (nth_error l i); reflexivity.
  - apply IH.
Qed.

Lemma nth_error_seq_all n i : nth_error (seq 0 n) i = if i <? n then Some i else None.
Proof.
  destruct (Nat.ltb_spec i n) as [H|H].
  - rewrite nth_error_seq by exact H. reflexivity.
  - apply nth_error_None. rewrite seq_length. exact H.
Qed.

Lemma nth_map_some {A} (l : list A) : forall p, nth p (map Some l) None = nth_error l p.
Proof. induction l as [|a l IH]; intros [|p]; cbn; auto. Qed.

(** ** Expanding a map over all points *)

Lemma scatter_nth {P} (k : list bool) : forall (pts : list P) rows p,
  Model.DictIndex.scatter None k (map Some pts) = Some rows -> p < length k ->
  nth p rows None = if nth p k false then nth_error pts (length (filter (fun b => b) (firstn p k))) else None.
Proof.
  induction k as [|b k IH]; intros pts rows p H L; [cbn in L; lia|].
  cbn [Model.DictIndex.scatter] in H. destruct b.
  - destruct pts as [|x pts]; cbn [map] in H; [discriminate|].
    destruct (Model.DictIndex.scatter None k (map Some pts)) as [r|] eqn:E; [|discriminate].
    cbn in H. injection H as <-. destruct p as [|p]; [reflexivity|]. cbn [nth firstn filter length nth_error].
    apply IH; [exact E|cbn in L; lia].
  - destruct (map Some pts) eqn:M;
      (destruct (Model.DictIndex.scatter None k _) as [r|] eqn:E; [|discriminate]);
      cbn in H; injection H as <-; (destruct p as [|p]; [reflexivity|]); cbn [nth firstn filter length nth_error];
      rewrite <- M in E; apply IH; try exact E; cbn in L; lia.
Qed.

Lemma scatter_length {P} (k : list bool) : forall (vals : list (option P)) rows,
  Model.DictIndex.scatter None k vals = Some rows -> length rows = length k.
Proof.
  induction k as [|b k IH]; intros vals rows H; cbn [Model.DictIndex.scatter] in H.
  - destruct vals; [|discriminate]. injection H as <-. reflexivity.
  - destruct b; destruct vals as [|v vals]; try discriminate;
      (destruct (Model.DictIndex.scatter None k _) as [r|] eqn:E; [|discriminate]);
      cbn in H; injection H as <-; cbn; f_equal; eapply IH; exact E.
Qed.

Lemma expand_at {A} size hidden (m : xmap A) rows p :
  expand size (match hidden with None => None | Some h => Some (map negb h) end) m = Some rows -> p < size ->
  length rows = size /\ nth p rows None = entry_at hidden (x_points m) p.
Proof.
  unfold expand. destruct hidden as [h|].
  - destruct (Nat.eqb_spec (length (map negb h)) size) as [L|L]; [|discriminate]. intros H Hp.
    split; [rewrite (scatter_length _ _ _ H); exact L|].
    rewrite (scatter_nth _ _ _ _ H) by lia. unfold entry_at.
    rewrite map_length in L.
    rewrite (nth_indep _ false (negb true)) by (rewrite map_length; lia). rewrite map_nth.
    rewrite firstn_map.
    replace (length (filter (fun b => b) (map negb (firstn p h)))) with (length (filter negb (firstn p h))).
    + destruct (nth p h true); reflexivity.
    + induction (firstn p h) as [|[|] l IH]; cbn; congruence.
  - destruct (Nat.eqb_spec (length (x_points m)) size) as [L|L]; [|discriminate]. intros H Hp. injection H as <-.
    split; [rewrite map_length; exact L|]. unfold entry_at.
    apply nth_map_some.
Qed.

(** ** nanargmax *)

Lemma nanargmax_from_spec sign l : forall done best,
  match best with
  | None => forall j y, nth_error done j = Some y -> y = None
  | Some (bi, b) => bi < length done /\ (exists x, nth_error done bi = Some (Some x) /\ b = (inject_Z sign * x)%Q) /\
      (forall j y, nth_error done j = Some (Some y) -> (inject_Z sign * y <= b)%Q) /\
      (forall j y, j < bi -> nth_error done j = Some (Some y) -> (inject_Z sign * y < b)%Q)
  end ->
  match nanargmax_from sign best (length done) l with
  | None => forall j y, nth_error (done ++ l) j = Some y -> y = None
  | Some i => exists x, nth_error (done ++ l) i = Some (Some x) /\
      (forall j y, nth_error (done ++ l) j = Some (Some y) -> (inject_Z sign * y <= inject_Z sign * x)%Q) /\
      (forall j y, j < i -> nth_error (done ++ l) j = Some (Some y) -> (inject_Z sign * y < inject_Z sign * x)%Q)
  end.
Proof.
  induction l as [|o l IH]; intros done best INV; cbn [nanargmax_from].
  - rewrite app_nil_r. destruct best as [[bi b]|]; cbn [option_map fst]; [|exact INV].
    destruct INV as [_ [[x [N ->]] [LE LT]]]. exists x. auto.
  - assert (E : done ++ o :: l = (done ++ [o]) ++ l) by (rewrite <- app_assoc; reflexivity).
    assert (LD : length (done ++ [o]) = S (length done)) by (rewrite app_length; cbn; lia).
    assert (SN : forall j y, nth_error (done ++ [o]) j = Some y -> (j < length done /\ nth_error done j = Some y) \/ (j = length done /\ y = o)).
    { intros j y N. destruct (Nat.lt_ge_cases j (length done)) as [H|H].
      - left. rewrite nth_error_app1 in N by exact H. auto.
      - right. rewrite nth_error_app2 in N by exact H. destruct (j - length done) as [|d] eqn:D; cbn in N.
        + injection N as <-. split; [lia|reflexivity].
        + destruct d; discriminate. }
    rewrite E, <- LD. destruct o as [x|].
    + destruct best as [[bi b]|].
      * destruct INV as [B [[x0 [N0 E0]] [LE LT]]].
        destruct (Qle_bool (inject_Z sign * x) b) eqn:C.
        -- apply Qle_bool_iff in C. apply IH. split; [lia|]. split.
           { exists x0. split; [rewrite nth_error_app1 by exact B; exact N0|exact E0]. }
           split.
           ++ intros j y N. apply SN in N. destruct N as [[_ N]|[_ N]]; [apply (LE j); exact N|injection N as ->; exact C].
           ++ intros j y H N. apply SN in N. destruct N as [[_ N]|[N _]]; [apply (LT j); assumption|lia].
        -- assert (C' : (b < inject_Z sign * x)%Q) by (apply Qnot_le_lt; intros H; apply Qle_bool_iff in H; congruence).
           apply IH. split; [lia|]. split.
           { exists x. split; [rewrite nth_error_app2, Nat.sub_diag by lia; reflexivity|reflexivity]. }
           split.
           ++ intros j y N. apply SN in N. destruct N as [[_ N]|[_ N]].
              ** apply Qlt_le_weak, Qle_lt_trans with b; [apply (LE j); exact N|exact C'].
              ** injection N as ->. apply Qle_refl.
           ++ intros j y H N. apply SN in N. destruct N as [[_ N]|[N _]]; [|lia].
              apply Qle_lt_trans with b; [apply (LE j); exact N|exact C'].
      * apply IH. split; [lia|]. split.
        { exists x. split; [rewrite nth_error_app2, Nat.sub_diag by lia; reflexivity|reflexivity]. }
        split.
        -- intros j y N. apply SN in N. destruct N as [[_ N]|[_ N]]; [apply INV in N; discriminate|injection N as ->; apply Qle_refl].
        -- intros j y H N. apply SN in N. destruct N as [[_ N]|[N _]]; [apply INV in N; discriminate|lia].
    + apply IH. destruct best as [[bi b]|].
      * destruct INV as [B [[x0 [N0 E0]] [LE LT]]]. split; [lia|]. split.
        { exists x0. split; [rewrite nth_error_app1 by exact B; exact N0|exact E0]. }
        split.
        -- intros j y N. apply SN in N. destruct N as [[_ N]|[_ N]]; [apply (LE j); exact N|discriminate].
        -- intros j y H N. apply SN in N. destruct N as [[_ N]|[_ N]]; [apply (LT j); assumption|discriminate].
      * intros j y N. apply SN in N. destruct N as [[_ N]|[_ N]]; [eapply INV; exact N|exact N].
Qed.

Lemma nanargmax_spec sign l :
  match nanargmax sign l with
  | None => forall j y, nth_error l j = Some y -> y = None
  | Some i => exists x, nth_error l i = Some (Some x) /\
      (forall j y, nth_error l j = Some (Some y) -> (inject_Z sign * y <= inject_Z sign * x)%Q) /\
      (forall j y, j < i -> nth_error l j = Some (Some y) -> (inject_Z sign * y < inject_Z sign * x)%Q)
  end.
Proof. apply (nanargmax_from_spec sign l [] None). intros j y N. destruct j; discriminate. Qed.

(** ** Sorting *)

Lemma before_total sign a b : before sign a b = false -> before sign b a = true.
Proof.
  destruct a as [x|], b as [y|]; cbn; try discriminate; try reflexivity.
  intros H. apply Qle_bool_iff. apply Qlt_le_weak, Qnot_le_lt. intros C. apply Qle_bool_iff in C. congruence.
Qed.
Lemma before_trans sign a b c : before sign a b = true -> before sign b c = true -> before sign a c = true.
Proof.
  destruct a as [x|], b as [y|], c as [z|]; cbn; try discriminate; try reflexivity.
  rewrite !Qle_bool_iff. intros H1 H2. apply Qle_trans with (inject_Z sign * y)%Q; assumption.
Qed.

Lemma insert_perm {B} sign (x : option Q * B) l : Permutation (insert sign x l) (x :: l).
Proof.
  induction l as [|y l IH]; cbn [insert]; [reflexivity|]. destruct (before _ _ _); [reflexivity|].
  etransitivity; [apply perm_skip, IH|]. apply perm_swap.
Qed.
Lemma sort_best_perm {B} sign (l : list (option Q * B)) : Permutation (sort_best sign l) l.
Proof.
  induction l as [|x l IH]; cbn; [constructor|]. etransitivity; [apply insert_perm|]. apply perm_skip, IH.
Qed.

Inductive sorted_by {B} (sign : Z) : list (option Q * B) -> Prop :=
| sb_nil : sorted_by sign []
| sb_cons x l : Forall (fun y => before sign (fst x) (fst y) = true) l -> sorted_by sign l -> sorted_by sign (x :: l).

Lemma insert_sorted {B} sign (x : option Q * B) l : sorted_by sign l -> sorted_by sign (insert sign x l).
Proof.
  induction 1 as [|y l F S IH]; cbn [insert]; [repeat constructor|].
  destruct (before sign (fst x) (fst y)) eqn:C.
  - constructor; [|constructor; assumption]. constructor; [exact C|].
    eapply Forall_impl; [|exact F]. intros z Hz. eapply before_trans; eassumption.
  - constructor; [|exact IH]. eapply Permutation_Forall; [symmetry; apply insert_perm|].
    constructor; [apply before_total; exact C|exact F].
Qed.
Lemma sort_best_sorted {B} sign (l : list (option Q * B)) : sorted_by sign (sort_best sign l).
Proof. induction l as [|x l IH]; cbn; [constructor|apply insert_sorted; exact IH]. Qed.

Lemma sorted_by_nth {B} sign (l : list (option Q * B)) : sorted_by sign l ->
  forall i j a b, i < j -> nth_error l i = Some a -> nth_error l j = Some b -> before sign (fst a) (fst b) = true.
Proof.
  induction 1 as [|x l F S IH]; intros i j a b H Ni Nj; [destruct i; discriminate|].
  destruct j as [|j]; [lia|]. cbn in Nj. destruct i as [|i].
  - cbn in Ni. injection Ni as <-. rewrite Forall_forall in F. apply F. eapply nth_error_In; exact Nj.
  - cbn in Ni. apply (IH i j); try assumption. lia.
Qed.

(** ** Simulation indices *)

Lemma fold_max_ge l : forall x y, In y (x :: l) -> (y <= fold_right Z.max x l)%Z.
Proof.
  induction l as [|a l IH]; intros x y; cbn [fold_right].
  - intros [->|[]]. lia.
  - intros [->|[->|H]].
    + specialize (IH y y (or_introl eq_refl)). lia.
    + lia.
    + specialize (IH x y (or_intror H)). lia.
Qed.
Lemma fold_min_le l : forall x y, In y (x :: l) -> (fold_right Z.min x l <= y)%Z.
Proof.
  induction l as [|a l IH]; intros x y; cbn [fold_right].
  - intros [->|[]]. lia.
  - intros [->|[->|H]].
    + specialize (IH y y (or_introl eq_refl)). lia.
    + lia.
    + specialize (IH x y (or_intror H)). lia.
Qed.
Lemma zmax_ge l m y : zmax l = Some m -> In y l -> (y <= m)%Z.
Proof. destruct l as [|x l]; [discriminate|]. cbn [zmax]. intros E. injection E as <-. apply fold_max_ge. Qed.
Lemma zmin_le l m y : zmin l = Some m -> In y l -> (m <= y)%Z.
Proof. destruct l as [|x l]; [discriminate|]. cbn [zmin]. intros E. injection E as <-. apply fold_min_le. Qed.

Lemma fold_max_in l : forall x, In (fold_right Z.max x l) (x :: l).
Proof.
  induction l as [|a l IH]; intros x; cbn [fold_right]; [left; reflexivity|].
  destruct (Z.max_spec a (fold_right Z.max x l)) as [[_ ->]|[_ ->]].
  - destruct (IH x) as [H|H]; [left; exact H|right; right; exact H].
  - right. left. reflexivity.
Qed.

Lemma increments_from_spec {A} (maps : list (xmap A)) : forall top,
  Forall (fun m => all_sims m <> []) maps ->
  exists incs, increments_from (Some top) maps = map Some incs /\ length incs = length maps /\
    (forall k m inc x, nth_error maps k = Some m -> nth_error incs k = Some inc -> In x (all_sims m) -> (top < x + inc)%Z) /\
    (forall k k' m m' inc inc' x x', k < k' -> nth_error maps k = Some m -> nth_error maps k' = Some m' ->
       nth_error incs k = Some inc -> nth_error incs k' = Some inc' -> In x (all_sims m) -> In x' (all_sims m') ->
       (x + inc < x' + inc')%Z).
Proof.
  induction maps as [|m maps IH]; intros top F.
  - exists []. repeat split; intros; destruct k; discriminate.
  - inversion F as [|? ? NE F']; subst. cbn [increments_from].
    destruct (zmin (all_sims m)) as [mn|] eqn:MN; [|destruct (all_sims m); [congruence|discriminate]].
    destruct (zmax (all_sims m)) as [mx|] eqn:MX; [|destruct (all_sims m); [congruence|discriminate]].
    set (inc := (Z.abs (top - mn) + 1)%Z).
    destruct (IH (inc + mx)%Z F') as [incs [E [L [LO DI]]]].
    assert (LOW : forall x, In x (all_sims m) -> (top < x + inc <= inc + mx)%Z).
    { intros x I. pose proof (zmin_le _ _ _ MN I). pose proof (zmax_ge _ _ _ MX I). unfold inc. lia. }
    assert (MM : (top < inc + mx)%Z).
    { destruct (all_sims m) as [|y ys] eqn:AS; [congruence|]. specialize (LOW y (or_introl eq_refl)). lia. }
    exists (inc :: incs). split; [cbn; rewrite E; reflexivity|]. split; [cbn; lia|]. split.
    + intros [|k] m0 i0 x; cbn [nth_error].
      * intros H1 H2 I. injection H1 as <-. injection H2 as <-. apply LOW in I. lia.
      * intros H1 H2 I. specialize (LO _ _ _ _ H1 H2 I). lia.
    + intros [|k] [|k'] m0 m1 i0 i1 x x' LT; cbn [nth_error]; try lia.
      * intros H1 H2 H3 H4 I I'. injection H1 as <-. injection H3 as <-.
        specialize (LO _ _ _ _ H2 H4 I'). apply LOW in I. lia.
      * intros H1 H2 H3 H4 I I'. assert (LT' : k < k') by lia. exact (DI _ _ _ _ _ _ _ _ LT' H1 H2 H3 H4 I I').
Qed.

Lemma increments_spec {A} (maps : list (xmap A)) : Forall (fun m => all_sims m <> []) maps ->
  exists incs, increments maps = map Some incs /\ length incs = length maps /\
    (forall k k' m m' inc inc' x x', k < k' -> nth_error maps k = Some m -> nth_error maps k' = Some m' ->
       nth_error incs k = Some inc -> nth_error incs k' = Some inc' -> In x (all_sims m) -> In x' (all_sims m') ->
       (x + inc < x' + inc')%Z).
Proof.
  destruct maps as [|m maps]; intros F.
  - exists []. repeat split; intros; destruct k; discriminate.
  - inversion F as [|? ? NE F']; subst. cbn [increments].
    destruct (zmax (all_sims m)) as [mx|] eqn:MX; [|destruct (all_sims m); [congruence|discriminate]].
    destruct (increments_from_spec maps mx F') as [incs [E [L [LO DI]]]].
    exists (0%Z :: incs). split; [cbn; rewrite E; reflexivity|]. split; [cbn; lia|].
    intros [|k] [|k'] m0 m1 i0 i1 x x' LT; cbn [nth_error]; try lia.
    + intros H1 H2 H3 H4 I I'. injection H1 as <-. injection H3 as <-.
      specialize (LO _ _ _ _ H2 H4 I'). pose proof (zmax_ge _ _ _ MX I). lia.
    + intros H1 H2 H3 H4 I I'. assert (LT' : k < k') by lia. exact (DI _ _ _ _ _ _ _ _ LT' H1 H2 H3 H4 I I').
Qed.

(** ** Collapsing (N, K) to N * K *)

Lemma flat_map_cons_perm {X Y} (f : X -> Y) (g : X -> list Y) l :
  Permutation (flat_map (fun j => f j :: g j) l) (map f l ++ flat_map g l).
Proof.
  induction l as [|a l IH]; cbn; [constructor|]. apply perm_skip.
  etransitivity; [apply Permutation_app_head; exact IH|]. rewrite !app_assoc. apply Permutation_app_tail, Permutation_app_comm.
Qed.
Lemma transpose_perm {X Y Z'} (f : X -> Y -> Z') (js : list Y) (col : list X) :
  Permutation (flat_map (fun j => map (fun x => f x j) col) js) (flat_map (fun x => map (fun j => f x j) js) col).
Proof.
  induction col as [|x col IH]; cbn [map flat_map].
  - induction js; cbn; auto.
  - etransitivity; [apply flat_map_cons_perm|]. apply Permutation_app_head, IH.
Qed.

Lemma combine_app {X Y} (a1 a2 : list X) (b1 b2 : list Y) : length a1 = length b1 ->
  combine (a1 ++ a2) (b1 ++ b2) = combine a1 b1 ++ combine a2 b2.
Proof.
  revert b1. induction a1 as [|x a1 IH]; intros [|y b1] H; cbn in *; try lia; [reflexivity|]. f_equal. apply IH. lia.
Qed.
Lemma combine_map_map {X Y W} (f : W -> X) (g : W -> Y) l : combine (map f l) (map g l) = map (fun w => (f w, g w)) l.
Proof. induction l; cbn; congruence. Qed.

Lemma combine_flat {X Y W J} (f : W -> J -> X) (g : W -> J -> Y) (js : list J) (col : list W) :
  combine (flat_map (fun j => map (fun w => f w j) col) js) (flat_map (fun j => map (fun w => g w j) col) js)
  = flat_map (fun j => map (fun w => (f w j, g w j)) col) js.
Proof.
  induction js as [|j js IH]; cbn; [reflexivity|].
  rewrite combine_app by (rewrite !map_length; reflexivity). rewrite IH. f_equal. apply combine_map_map.
Qed.

(** ** The loop over maps *)

Section Loop.
Context {A : Type}.
Variables (str : nat -> string) (size : nat) (w : list Z) (tables : list (list (option (point A)))).
Hypothesis LW : length w = size.
Hypothesis LT : Forall (fun t => length t = size) tables.
Hypothesis LB : Forall (fun k => (-1 <= k)%Z) w.

Definition inv (i : nat) (st : state A) : Prop :=
  length (st_id st) = size /\ length (st_new st) = size /\
  Forall (fun e => (-1 <= fst e < Z.of_nat i)%Z /\ (fst e = (-1)%Z -> snd e = not_indexed_phase)) (st_list st) /\
  forall p, p < size ->
    let k := nth p w 0%Z in
    ((k = -1)%Z -> nth p (st_id st) 0%Z = (-1)%Z /\ nth p (st_new st) None = None) /\
    ((Z.of_nat i <= k)%Z -> nth p (st_id st) 0%Z = k /\ nth p (st_new st) None = None) /\
    ((0 <= k < Z.of_nat i)%Z -> (0 <= nth p (st_id st) 0 < Z.of_nat i)%Z /\
       nth p (st_new st) None = nth p (nth (Z.to_nat k) tables []) None).

Lemma nth_choose {B} (mask : list bool) (old new : list B) p d : length mask = size -> length old = size -> length new = size ->
  p < size -> nth p (choose mask old new) d = if nth p mask false then nth p new d else nth p old d.
Proof using.
  clear LW LT LB. intros L1 L2 L3 Hp. unfold choose.
  revert old new p L1 L2 L3 Hp. revert size. induction mask as [|b mask IH]; intros n old new p L1 L2 L3 Hp; [cbn in L1; lia|].
  destruct old as [|o old]; [cbn in *; lia|]. destruct new as [|x new]; [cbn in *; lia|]. cbn [combine map fst snd].
  destruct p as [|p]; [reflexivity|]. cbn [nth]. destruct n as [|n]; [lia|]. apply (IH n); cbn in *; lia.
Qed.
Lemma nth_set {B} (mask : list bool) (old : list B) v p d : length mask = size -> length old = size -> p < size ->
  nth p (map (fun t : bool * B => if fst t then v else snd t) (combine mask old)) d = if nth p mask false then v else nth p old d.
Proof using.
  clear LW LT LB. revert old p. revert size. induction mask as [|b mask IH]; intros n old p L1 L2 Hp; [cbn in L1; lia|].
  destruct old as [|o old]; [cbn in *; lia|]. cbn [combine map fst snd].
  destruct p as [|p]; [reflexivity|]. cbn [nth]. destruct n as [|n]; [lia|]. apply (IH n); cbn in *; lia.
Qed.

Definition id_ok (i : nat) (e : Z * phase) : Prop := (-1 <= fst e < Z.of_nat i)%Z /\ (fst e = (-1)%Z -> snd e = not_indexed_phase).

Lemma add_phase_bound ph pl i : Forall (id_ok i) pl -> Forall (id_ok (S i)) (add_phase ph pl).
Proof using.
  clear. intros F. unfold add_phase. apply Forall_app. split.
  - eapply Forall_impl; [|exact F]. unfold id_ok. intros e [H1 H2]. split; [lia|exact H2].
  - constructor; [|constructor]. unfold id_ok. cbn [fst snd].
    assert (B : (-1 <= fold_right Z.max (-1) (map fst pl) < Z.of_nat i)%Z \/ fold_right Z.max (-1)%Z (map fst pl) = (-1)%Z).
    { induction F as [|e pl [H _] F IH]; cbn; [right; reflexivity|]. left. lia. }
    lia.
Qed.

Lemma step_inv i st m rows st' : inv i st -> nth_error tables i = Some rows -> ph_name (x_phase m) <> "not_indexed"%string ->
  step str st (i, (m, rows)) = Some st' -> inv (S i) st'.
Proof using LW LT LB.
  intros INV N NN. pose proof INV as [L1 [L2 [IDS PT]]]. fold (id_ok i) in IDS. cbn [step].
  set (mask := map (fun k => (k =? Z.of_nat i)%Z) (st_id st)).
  assert (LM : length mask = size) by (unfold mask; rewrite map_length; exact L1).
  assert (LR : length rows = size) by (rewrite Forall_forall in LT; apply LT; eapply nth_error_In; exact N).
  assert (MK : forall p, p < size -> nth p mask false = (nth p (st_id st) 0 =? Z.of_nat i)%Z).
  { intros p Hp. unfold mask. rewrite (nth_indep _ false ((0 =? Z.of_nat i)%Z)) by (rewrite map_length; lia).
    apply (map_nth (fun k => (k =? Z.of_nat i)%Z)). }
  assert (NT : nth i tables [] = rows) by (apply (nth_error_nth _ _ _ N)).
  assert (WB : forall p, p < size -> (-1 <= nth p w 0)%Z).
  { intros p Hp. rewrite Forall_forall in LB. apply LB, nth_In. lia. }
  assert (GEN : forall ids pl, length ids = size ->
     (forall p, p < size -> nth p mask false = false -> nth p ids 0%Z = nth p (st_id st) 0%Z) ->
     (forall p, p < size -> nth p mask false = true -> (0 <= nth p ids 0 < Z.of_nat (S i))%Z) ->
     Forall (id_ok (S i)) pl ->
     inv (S i) (St ids pl (choose mask (st_new st) rows))).
  { intros ids pl LI KEEP NEW PLB. unfold inv. cbn [st_id st_new st_list].
    split; [exact LI|]. split; [unfold choose; rewrite map_length, !combine_length; lia|]. split; [exact PLB|].
    intros p Hp. cbv zeta. destruct (PT p Hp) as [C1 [C2 C3]]. specialize (WB p Hp). specialize (MK p Hp).
    rewrite (nth_choose mask (st_new st) rows p None) by assumption.
    destruct (Z.lt_trichotomy (nth p w 0%Z) (Z.of_nat i)) as [H|[H|H]].
    - assert (MF : nth p mask false = false).
      { rewrite MK. apply Z.eqb_neq. destruct (Z.eq_dec (nth p w 0%Z) (-1)) as [E|E].
        - destruct (C1 E) as [-> _]. lia.
        - destruct (C3 ltac:(lia)) as [X _]. lia. }
      rewrite MF, (KEEP p Hp MF). split; [exact C1|]. split; [lia|]. intros K. destruct (C3 ltac:(lia)) as [X Y].
      split; [lia|exact Y].
    - destruct (C2 ltac:(lia)) as [X Y]. assert (MT : nth p mask false = true) by (rewrite MK, X, H; apply Z.eqb_refl).
      rewrite MT. split; [lia|]. split; [lia|]. intros _. split; [apply NEW; assumption|].
      rewrite H, Nat2Z.id, NT. reflexivity.
    - destruct (C2 ltac:(lia)) as [X Y]. assert (MF : nth p mask false = false) by (rewrite MK, X; apply Z.eqb_neq; lia).
      rewrite MF, (KEEP p Hp MF). split; [lia|]. split; [intros _; split; assumption|lia]. }
  destruct (existsb (fun b => b) mask) eqn:EX.
  - unfold phase_in_data. destruct (existsb _ (x_points m)); [|discriminate]. set (ph := x_phase m) in *.
    assert (OLD : forall pl, Forall (id_ok (S i)) pl -> inv (S i) (St (st_id st) pl (choose mask (st_new st) rows))).
    { intros pl PLB. apply GEN; try assumption; [reflexivity|].
      intros p Hp MT. rewrite MK in MT by exact Hp. apply Z.eqb_eq in MT. lia. }
    destruct (find_name (ph_name ph) (st_list st)) as [[id other]|] eqn:FN.
    + assert (IB : (0 <= id < Z.of_nat i)%Z).
      { unfold find_name in FN. apply find_some in FN. destruct FN as [IN EQ]. cbn [snd] in EQ. apply String.eqb_eq in EQ.
        rewrite Forall_forall in IDS. destruct (IDS _ IN) as [B1 B2]. cbn [fst snd] in B1, B2.
        destruct (Z.eq_dec id (-1)) as [E|E]; [|lia]. exfalso. apply NN. rewrite <- EQ, (B2 E). reflexivity. }
      destruct (ph_content ph =? ph_content other).
      * intros E. injection E as <-. apply GEN.
        -- rewrite map_length, combine_length. lia.
        -- intros p Hp MF. rewrite nth_set by assumption. rewrite MF. reflexivity.
        -- intros p Hp MT. rewrite nth_set by assumption. rewrite MT. lia.
        -- eapply Forall_impl; [|exact IDS]. intros e [H1 H2]. split; [lia|exact H2].
      * destruct (find_name (ph_name ph ++ str i) (st_list st)); [discriminate|]. intros E. injection E as <-. apply OLD, add_phase_bound, IDS.
    + intros E. injection E as <-. apply OLD, add_phase_bound, IDS.
  - intros E. injection E as <-. unfold inv. split; [exact L1|]. split; [exact L2|].
    split; [eapply Forall_impl; [|exact IDS]; intros e [H1 H2]; split; [lia|exact H2]|].
    intros p Hp. cbv zeta. destruct (PT p Hp) as [C1 [C2 C3]]. specialize (WB p Hp). specialize (MK p Hp).
    assert (MF : nth p mask false = false).
    { destruct (nth p mask false) eqn:MM; [|reflexivity]. exfalso.
      assert (X : existsb (fun b => b) mask = true) by (apply existsb_exists; exists true; split; [rewrite <- MM; apply nth_In; lia|reflexivity]).
      congruence. }
    rewrite MK in MF. apply Z.eqb_neq in MF.
    split; [exact C1|]. split; [intros K; apply C2; lia|]. intros K.
    destruct (Z.eq_dec (nth p w 0%Z) (Z.of_nat i)) as [E|E].
    + exfalso. destruct (C2 ltac:(lia)) as [X _]. lia.
    + destruct (C3 ltac:(lia)) as [X Y]. split; [lia|exact Y].
Qed.

Lemma steps_inv (maps : list (xmap A)) : forall rest i st st', inv i st ->
  (forall k r, nth_error rest k = Some r -> nth_error tables (i + k) = Some r) ->
  length maps = length rest -> (forall m, In m maps -> ph_name (x_phase m) <> "not_indexed"%string) ->
  steps str st (combine (seq i (length rest)) (combine maps rest)) = Some st' -> inv (i + length rest) st'.
Proof using LW LT LB.
  induction maps as [|m maps IH]; intros [|r rest] i st st' INV NT L NN; cbn in L; try lia.
  - cbn. intros E. injection E as <-. rewrite Nat.add_0_r. exact INV.
  - cbn [length seq combine steps]. destruct (step str st (i, (m, r))) as [s1|] eqn:ST; [|discriminate].
    intros E. replace (i + S (length rest)) with (S i + length rest) by lia.
    apply (IH rest (S i) s1 st'); try assumption; try lia.
    + eapply step_inv; [exact INV| | |exact ST]. specialize (NT 0 r eq_refl). rewrite Nat.add_0_r in NT. exact NT.
      apply NN. left. reflexivity.
    + intros k r' N. specialize (NT (S k) r' N). replace (S i + k) with (i + S k) by lia. exact NT.
    + intros m' I. apply NN. right. exact I.
Qed.
End Loop.

(** Phases with different names: IDs stay those of the maps, and the list holds the phases of the maps that
    are used, in order. *)
Definition used (w : list Z) (i : nat) : bool := existsb (fun k => (k =? Z.of_nat i)%Z) w.

Lemma existsb_mask w i : existsb (fun b => b) (map (fun k => (k =? Z.of_nat i)%Z) w) = used w i.
Proof. induction w as [|k w IH]; cbn; [reflexivity|]. rewrite IH. reflexivity. Qed.

Lemma steps_names {A} str (w : list Z) (maps : list (xmap A)) : forall rest i st st',
  st_id st = w -> length maps = length rest ->
  NoDup (map (fun m => ph_name (x_phase m)) maps) ->
  (forall m, In m maps -> ~ In (ph_name (x_phase m)) (map (fun e => ph_name (snd e)) (st_list st))) ->
  steps str st (combine (seq i (length rest)) (combine maps rest)) = Some st' ->
  st_id st' = w /\
  map snd (st_list st') = map snd (st_list st) ++ map (fun im => x_phase (snd im)) (filter (fun im => used w (fst im)) (combine (seq i (length rest)) maps)).
Proof.
  induction maps as [|m maps IH]; intros [|r rest] i st st' W L ND NI; cbn in L; try lia.
  - cbn. intros E. injection E as <-. rewrite app_nil_r. auto.
  - cbn [length seq combine steps]. destruct (step str st (i, (m, r))) as [s1|] eqn:ST; [|discriminate]. intros E.
    cbn [map] in ND. inversion ND as [|? ? ND1 ND2]; subst.
    cbn [step] in ST. rewrite existsb_mask in ST. cbn [filter fst snd]. destruct (used (st_id st) i) eqn:U.
    + unfold phase_in_data in ST. destruct (existsb _ (x_points m)); [|discriminate].
      assert (FN : find_name (ph_name (x_phase m)) (st_list st) = None).
      { destruct (find_name _ _) as [e|] eqn:F; [|reflexivity]. exfalso. unfold find_name in F. apply find_some in F.
        destruct F as [I EQ]. apply String.eqb_eq in EQ. apply (NI m (or_introl eq_refl)). rewrite <- EQ.
        apply (in_map (fun e => ph_name (snd e))). exact I. }
      rewrite FN in ST. injection ST as <-. apply IH in E; cbn [st_id st_list] in *; try lia; try assumption; try reflexivity.
      * destruct E as [E1 E2]. split; [exact E1|]. rewrite E2. unfold add_phase. rewrite map_app, <- app_assoc. reflexivity.
      * intros m' I. unfold add_phase. rewrite map_app, in_app_iff. intros [H|H].
        -- apply (NI m' (or_intror I)). exact H.
        -- cbn in H. destruct H as [H|[]]. apply ND1. rewrite H. apply (in_map (fun m => ph_name (x_phase m))). exact I.
    + injection ST as <-. apply IH in E; try assumption; try lia; try reflexivity.
      intros m' I. apply NI. right. exact I.
Qed.

(** All names in the list of phases are different. *)
Lemma find_name_none n pl : find_name n pl = None -> ~ In n (map (fun e => ph_name (snd e)) pl).
Proof.
  intros F I. apply in_map_iff in I. destruct I as [e [E I]]. unfold find_name in F. pose proof (find_none _ _ F e I) as X. cbn beta in X.
  rewrite E, String.eqb_refl in X. discriminate.
Qed.
Lemma add_phase_names ph pl : NoDup (map (fun e => ph_name (snd e)) pl) -> find_name (ph_name ph) pl = None -> NoDup (map (fun e => ph_name (snd e)) (add_phase ph pl)).
Proof.
  intros N F. unfold add_phase. rewrite map_app. cbn [map snd]. apply NoDup_rev in N. rewrite <- (rev_involutive (_ ++ _)). apply NoDup_rev. rewrite rev_app_distr. cbn.
  constructor; [|exact N]. rewrite <- in_rev. apply find_name_none. exact F.
Qed.
Lemma step_names {A} str (st st' : state A) im : NoDup (map (fun e => ph_name (snd e)) (st_list st)) -> step str st im = Some st' -> NoDup (map (fun e => ph_name (snd e)) (st_list st')).
Proof.
  destruct im as [i [m rows]]. intros N. cbn [step]. destruct (existsb _ _); [|intros E; now injection E as <-].
  destruct (phase_in_data m) as [ph|]; [|discriminate]. destruct (find_name (ph_name ph) (st_list st)) as [[id other]|] eqn:F.
  - destruct (_ =? _); [intros E; now injection E as <-|]. destruct (find_name (ph_name ph ++ str i) _) eqn:F2; [discriminate|].
    intros E. injection E as <-. cbn [st_list]. now apply add_phase_names.
  - intros E. injection E as <-. cbn [st_list]. now apply add_phase_names.
Qed.
Lemma steps_names_distinct {A} str l : forall (st st' : state A), NoDup (map (fun e => ph_name (snd e)) (st_list st)) -> steps str st l = Some st' -> NoDup (map (fun e => ph_name (snd e)) (st_list st')).
Proof.
  induction l as [|im l IH]; intros st st' N; [intros E; now injection E as <-|]. cbn [steps]. destruct (step str st im) as [s1|] eqn:S; [|discriminate].
  apply IH. eapply step_names; eassumption.
Qed.

(** Different phases, some of which share a name: IDs stay those of the maps, and the list holds the phases of the maps
    that are used, in order, some of them renamed. *)
Definition labelled {A} (str : nat -> string) (e : phase) (im : nat * xmap A) : Prop :=
  ph_content e = ph_content (x_phase (snd im)) /\
  (ph_name e = ph_name (x_phase (snd im)) \/ ph_name e = (ph_name (x_phase (snd im)) ++ str (fst im))%string).
Lemma steps_renamed {A} str (w : list Z) (maps : list (xmap A)) : forall rest i st st',
  st_id st = w -> length maps = length rest -> NoDup (map x_phase maps) ->
  (forall m m' k, In m maps -> In m' maps -> ph_name (x_phase m') <> (ph_name (x_phase m) ++ str k)%string) ->
  (forall m e, In m maps -> In e (st_list st) -> ph_name (snd e) = ph_name (x_phase m) -> ph_content (snd e) <> ph_content (x_phase m)) ->
  steps str st (combine (seq i (length rest)) (combine maps rest)) = Some st' ->
  st_id st' = w /\
  exists new, map snd (st_list st') = map snd (st_list st) ++ new /\
    Forall2 (labelled str) new (filter (fun im => used w (fst im)) (combine (seq i (length rest)) maps)).
Proof.
  induction maps as [|m maps IH]; intros [|r rest] i st st' W L ND NS NI; cbn in L; try lia.
  - cbn. intros E. injection E as <-. split; [exact W|]. exists []. rewrite app_nil_r. split; [reflexivity|constructor].
  - cbn [length seq combine steps]. destruct (step str st (i, (m, r))) as [s1|] eqn:ST; [|discriminate]. intros E.
    cbn [map] in ND. inversion ND as [|? ? ND1 ND2]; subst.
    assert (NS' : forall m0 m' k, In m0 maps -> In m' maps -> ph_name (x_phase m') <> (ph_name (x_phase m0) ++ str k)%string) by (intros m0 m' k I I'; apply NS; now right).
    cbn [step] in ST. rewrite existsb_mask in ST. cbn [filter fst snd]. destruct (used (st_id st) i) eqn:U.
    + unfold phase_in_data in ST. destruct (existsb _ (x_points m)); [|discriminate].
      assert (KEY : exists ph', labelled str ph' (i, m) /\ st_id s1 = st_id st /\ st_list s1 = add_phase ph' (st_list st) /\
                     (ph' = x_phase m \/ ph_name ph' = (ph_name (x_phase m) ++ str i)%string)).
      { destruct (find_name (ph_name (x_phase m)) (st_list st)) as [[id other]|] eqn:FN.
        - unfold find_name in FN. apply find_some in FN. destruct FN as [I EQ]. cbn [snd] in EQ. apply String.eqb_eq in EQ.
          pose proof (NI m _ (or_introl eq_refl) I EQ) as NC. cbn [snd] in NC.
          destruct (Nat.eqb_spec (ph_content (x_phase m)) (ph_content other)) as [X|X]; [congruence|].
          destruct (find_name (ph_name (x_phase m) ++ str i) (st_list st)); [discriminate|]. injection ST as <-.
          exists (rename (x_phase m) (str i)). unfold labelled. cbn. auto.
        - injection ST as <-. exists (x_phase m). unfold labelled. cbn. auto. }
      destruct KEY as [ph' [LB [I1 [L1 FR]]]]. apply IH in E; try assumption; try lia.
      * destruct E as [E1 [new [E2 E3]]]. split; [exact E1|]. exists (ph' :: new). split.
        -- rewrite E2, L1. unfold add_phase. rewrite map_app, <- app_assoc. reflexivity.
        -- constructor; assumption.
      * intros m' e I IE NE. rewrite L1 in IE. unfold add_phase in IE. apply in_app_or in IE. destruct IE as [IE|[<-|[]]].
        -- apply (NI m' e); [now right|exact IE|exact NE].
        -- cbn [snd] in *. destruct FR as [->|FR].
           ++ intros C. apply ND1. apply in_map_iff. exists m'. split; [|exact I]. destruct (x_phase m), (x_phase m'). cbn in *. congruence.
           ++ exfalso. apply (NS m m' i (or_introl eq_refl) (or_intror I)). congruence.
    + injection ST as <-. apply IH in E; try assumption; try lia; try reflexivity.
      intros m' e I. apply NI. now right.
Qed.
