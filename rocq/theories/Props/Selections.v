(** Selections with single indices, steps and values: property C104. *)
From Coq Require Import String List Arith ZArith Reals Bool Lia Lra Sorted.
From Verif Require Import Model.Binary Model.NdArray Model.Selections Spec.Slices Spec.Selections Proofs.SelectionsProofs.
From Verif Require Model.Detector Model.SignalSlices Model.SignalHistory Proofs.DetectorProofs Proofs.SignalSlicesProofs Proofs.CoordinateConversionProofs Props.SignalSlices.
Import ListNotations.
Local Open Scope nat_scope.

(** ** What a selection means *)

(** A value in the units of an axis is the index of that value.  Values before the axis are no start, values after it no end. *)
Definition start_at (ax : axis) (e : option edge) (i : option Z) : Prop :=
  match e with None => i = None | Some (Index z) => i = Some z | Some (Value x) => i = value2index ax x /\ (i = None -> (x <= high ax)%R) end.
Definition stop_at (ax : axis) (e : option edge) (i : option Z) : Prop :=
  match e with None => i = None | Some (Index z) => i = Some z | Some (Value x) => i = value2index ax x /\ (i = None -> (low ax <= x)%R) end.
(** The positions on an axis that an item selects, in order, and whether the axis is kept. *)
Definition selects (ax : axis) (it : item) (lk : list nat * bool) : Prop :=
  match it with
  | One e => exists z k, (match e with Index i => z = i | Value x => value2index ax x = Some z end)
      /\ k < size ax /\ Z.of_nat k = from_end (Z.of_nat (size ax)) z /\ lk = ([k], false)
  | Many r => exists i j l, start_at ax (from r) i /\ stop_at ax (until r) j /\ step_of (step r) <> 0%Z /\ in_order (step_of (step r)) l
      /\ (forall k, In k l <-> chosen (Z.of_nat (size ax)) i j (step_of (step r)) (Z.of_nat k)) /\ lk = (l, true)
  end.
(** Items are given in the reverse order of the axes of the array; those left out select everything. *)
Definition selects_all (axes : list axis) (items : list item) (ls : list (list nat * bool)) : Prop :=
  length items <= length axes /\
  Forall2 (fun ai lk => selects (fst ai) (snd ai) lk) (combine axes (rev (items ++ repeat (Many whole) (length axes - length items)))) ls.
(** The number of an element of an array in a list of all elements. *)
Definition row_major (sh i : list nat) : nat := fold_left (fun r nk => r * fst nk + snd nk) (combine sh i) 0.
(** The axes are those of the map, and patterns and background have the shape of the detector. *)
Definition fits (axes : list axis) (s : signal) : Prop :=
  map size axes = shape (patterns s) /\ (forall i, shape (at_ (patterns s) i) = [fst (sig s); snd (sig s)])
  /\ (forall b, background s = Some b -> shape b = [fst (sig s); snd (sig s)]).
Definition pc_per_pattern (s : signal) : Prop :=
  Detector.nav_shape (Detector.d_pc (detector s)) = shape (patterns s)
  /\ length (Detector.pcs (Detector.d_pc (detector s))) = product (shape (patterns s)).

Lemma row_major_flat sh : forall i, length i = length sh -> row_major sh i = flat sh i.
Proof.
  unfold row_major. enough (H : forall i r, length i = length sh -> fold_left (fun r nk => r * fst nk + snd nk) (combine sh i) r = r * product sh + flat sh i).
  { intros i L. rewrite H by exact L. reflexivity. }
  induction sh as [|n sh IH]; intros [|k i] r L; try discriminate; cbn [combine fold_left flat product fold_right fst snd]; [lia|].
  rewrite IH by (now injection L). unfold product. nia.
Qed.

(** ** inav *)

Lemma range_selects ax r e p : range_entry ax r = Some e -> entry_positions (size ax) e = Some p -> selects ax (Many r) p.
Proof.
  unfold range_entry. intros E P. destruct (start_index ax (from r)) as [i|] eqn:Ei; [|discriminate]. destruct (stop_index ax (until r)) as [j|] eqn:Ej; [|discriminate].
  cbn [bind] in E.
  assert (Z0 : step_of (step r) <> 0%Z /\ e = Sl i j (step r)) by (unfold step_of; destruct (step r) as [[|z|z]|]; try discriminate; injection E as <-; split; (discriminate || reflexivity)).
  destruct Z0 as [Z0 ->]. cbn [entry_positions] in P. injection P as <-. cbn [selects]. exists i, j, (positions (size ax) i j (step r)).
  destruct (positions_chosen (size ax) i j (step r) Z0) as [O C].
  split; [|split; [|split; [exact Z0|split; [exact O|split; [exact C|reflexivity]]]]].
  - unfold start_index in Ei. unfold start_at. destruct (from r) as [[z|x]|]; try (injection Ei as <-; reflexivity).
    destruct (value2index ax x); [injection Ei as <-; split; [reflexivity|discriminate]|]. destruct (Rlt_dec (high ax) x); [discriminate|]. injection Ei as <-. split; [reflexivity|intros _; lra].
  - unfold stop_index in Ej. unfold stop_at. destruct (until r) as [[z|x]|]; try (injection Ej as <-; reflexivity).
    destruct (value2index ax x); [injection Ej as <-; split; [reflexivity|discriminate]|]. destruct (Rlt_dec x (low ax)); [discriminate|]. injection Ej as <-. split; [reflexivity|intros _; lra].
Qed.
Lemma nav_selects ax it e p : nav_entry ax it = Some e -> entry_positions (size ax) e = Some p -> selects ax it p.
Proof.
  destruct it as [[i|x]|r]; cbn [nav_entry selects].
  - intros E P. injection E as <-. cbn [entry_positions] in P. destruct (position (size ax) i) as [k|] eqn:K; [|discriminate]. injection P as <-.
    destruct (position_spec _ _ _ K) as [A B]. exists i, k. auto.
  - intros E P. destruct (value2index ax x) as [z|]; [|discriminate]. injection E as <-. cbn [entry_positions] in P. destruct (position (size ax) z) as [k|] eqn:K; [|discriminate]. injection P as <-.
    destruct (position_spec _ _ _ K) as [A B]. exists z, k. auto.
  - apply range_selects.
Qed.

Lemma f2_length {A B} {P : A -> B -> Prop} {l m} : Forall2 P l m -> length l = length m.
Proof. induction 1; cbn [length]; congruence. Qed.

Section Maps.
Variable negative_index : list entry -> cmap -> cmap.
Let inav := inav negative_index.
Let crop := crop negative_index.

Lemma inav_inv axes items s s' : fits axes s -> inav axes items s = Some s' ->
  exists es ps pc, Forall2 (fun ai e => nav_entry (fst ai) (snd ai) = Some e) (combine axes (rev (items ++ repeat (Many whole) (length axes - length items)))) es
    /\ length items <= length axes /\ length es = length axes
    /\ axes_positions (shape (patterns s)) es = Some ps /\ existsb (Nat.eqb 0) (new_shape ps) = false
    /\ update_pc es (Detector.d_pc (detector s)) = Some pc
    /\ s' = Signal (Arr (new_shape ps) (fun i => at_ (patterns s) (source ps i))) (sig s) (Detector.with_pc (detector s) pc) (background s)
              (option_map (update_xmap negative_index es (Some (length (new_shape ps)))) (xmap s)).
Proof.
  intros (F & _) E. unfold inav, Selections.inav in E. destruct (Nat.ltb_spec (length axes) (length items)) as [?|L]; [discriminate|].
  set (its := rev _) in *. destruct (all_some _) as [es|] eqn:A in E; [|discriminate]. cbn [bind] in E. apply all_some_inv in A.
  unfold getitem in E. destruct (axes_positions (shape (patterns s)) es) as [ps|] eqn:P; [|discriminate]. cbn [bind shape] in E.
  destruct (existsb (Nat.eqb 0) (new_shape ps)) eqn:N; [discriminate|]. destruct (update_pc es _) as [pc|] eqn:U; [|discriminate]. cbn [bind] in E. injection E as <-.
  exists es, ps, pc. repeat split; auto.
  assert (LL : length its = length axes) by (unfold its; rewrite rev_length, app_length, repeat_length; lia).
  pose proof (f2_length A) as A2. rewrite combine_length in A2. lia.
Qed.
Lemma selects_from axes : forall its es ps, Forall2 (fun ai e => nav_entry (fst ai) (snd ai) = Some e) (combine axes its) es -> length its = length axes ->
  axes_positions (map size axes) es = Some ps -> Forall2 (fun ai lk => selects (fst ai) (snd ai) lk) (combine axes its) ps.
Proof.
  induction axes as [|ax axes IH]; intros [|it its] es ps A L P; try discriminate; cbn [combine] in A; inversion A; subst; cbn [map axes_positions combine] in *.
  - injection P as <-. constructor.
  - cbn [fst snd] in *. match type of P with context [entry_positions _ ?e] => destruct (entry_positions (size ax) e) as [p|] eqn:Q; [|discriminate] end.
    cbn [bind] in P. match type of P with context [axes_positions _ ?l] => destruct (axes_positions (map size axes) l) as [r|] eqn:G; [|discriminate] end.
    cbn [bind] in P. injection P as <-. constructor; [cbn [fst snd]; eapply nav_selects; eassumption|]. eapply IH; [eassumption|now injection L|exact G].
Qed.

Lemma selects_bound ax it l b : selects ax it (l, b) -> Forall (fun k => k < size ax) l.
Proof.
  destruct it as [e|r]; cbn [selects].
  - intros (z & k & _ & H & _ & E). injection E as -> _. constructor; [exact H|constructor].
  - intros (i & j & l' & _ & _ & _ & _ & H & E). injection E as -> _. apply Forall_forall. intros k K. apply H in K. destruct K as [K _]. lia.
Qed.
Lemma sorted_nodup (P : nat -> nat -> Prop) l : (forall k, ~ P k k) -> StronglySorted P l -> NoDup l.
Proof.
  intros H. induction 1 as [|a l _ IH F]; constructor; [|exact IH]. intros K. rewrite Forall_forall in F. exact (H _ (F _ K)).
Qed.
Lemma selects_nodup ax it l b : selects ax it (l, b) -> NoDup l.
Proof.
  destruct it as [e|r]; cbn [selects].
  - intros (z & k & _ & H & _ & E). injection E as -> _. constructor; [intros []|constructor].
  - intros (i & j & l' & _ & _ & Z0 & [O1 O2] & _ & E). injection E as -> _. destruct (Z_lt_dec 0 (step_of (step r))).
    + eapply sorted_nodup; [|apply O1; assumption]. intros k. lia.
    + eapply sorted_nodup; [|apply O2; lia]. intros k. lia.
Qed.
Lemma selects_unique ax it a b : selects ax it a -> selects ax it b -> a = b.
Proof.
  destruct it as [e|r]; cbn [selects].
  - intros (z & k & Hz & _ & E & ->) (z' & k' & Hz' & _ & E' & ->). assert (z = z') as <- by (destruct e; congruence). repeat f_equal. lia.
  - intros (i & j & l & Hi & Hj & Z0 & [O1 O2] & C & ->) (i' & j' & l' & Hi' & Hj' & _ & [O1' O2'] & C' & ->).
    assert (i = i') as <- by (unfold start_at in *; destruct (from r) as [[|]|]; try congruence; destruct Hi, Hi'; congruence).
    assert (j = j') as <- by (unfold stop_at in *; destruct (until r) as [[|]|]; try congruence; destruct Hj, Hj'; congruence).
    f_equal. destruct (Z_lt_dec 0 (step_of (step r))).
    + apply (sorted_same (P := lt)); [lia|auto|auto|]. intros k. rewrite C, C'. reflexivity.
    + apply (sorted_same (P := gt)); [lia|apply O2; lia|apply O2'; lia|]. intros k. rewrite C, C'. reflexivity.
Qed.
Lemma selects_all_unique axes items a b : selects_all axes items a -> selects_all axes items b -> a = b.
Proof.
  intros [_ A] [_ B]. revert b B. induction A as [|x p l ps H _ IH]; intros b B; inversion B; subst; [reflexivity|]. f_equal; [eapply selects_unique; eassumption|apply IH; assumption].
Qed.
Lemma placed_bound axes : forall its ps i j, length its = length axes -> Forall2 (fun ai lk => selects (fst ai) (snd ai) lk) (combine axes its) ps ->
  placed ps i j -> Forall2 lt j (map size axes).
Proof.
  induction axes as [|ax axes IH]; intros [|it its] ps i j L Q H; try discriminate; cbn [combine] in Q; inversion Q as [|? [l b] ? ps' Q1 Q2]; subst; inversion H; subst; cbn [map fst snd] in *.
  - constructor.
  - constructor; [|eapply IH; [|exact Q2|eassumption]; now injection L]. apply selects_bound in Q1. rewrite Forall_forall in Q1. apply Q1. eapply nth_error_In. eassumption.
  - constructor; [|eapply IH; [|exact Q2|eassumption]; now injection L]. apply selects_bound in Q1. inversion Q1. assumption.
Qed.

(** Each pattern after is the pattern at the selected position, for any mixture of indices, ranges with steps and values; the patterns
    themselves, the background and the detector but for the PCs stay. *)
Theorem C104_inav axes items s s' : fits axes s -> inav axes items s = Some s' ->
  exists ls, selects_all axes items ls
    /\ shape (patterns s') = map (fun lk => length (fst lk)) (filter snd ls) /\ ~ In 0 (shape (patterns s'))
    /\ (forall i j, placed ls i j -> at_ (patterns s') i = at_ (patterns s) j)
    /\ background s' = background s /\ sig s' = sig s
    /\ Detector.with_pc (detector s') (Detector.d_pc (detector s)) = detector s
    /\ (Detector.nav_shape (Detector.d_pc (detector s)) = [1] -> detector s' = detector s)
    /\ (pc_per_pattern s ->
        Detector.nav_shape (Detector.d_pc (detector s')) = match shape (patterns s') with [] => [1] | sh => sh end
        /\ length (Detector.pcs (Detector.d_pc (detector s'))) = product (shape (patterns s'))
        /\ forall i j, placed ls i j ->
             nth_error (Detector.pcs (Detector.d_pc (detector s'))) (row_major (shape (patterns s')) i)
             = nth_error (Detector.pcs (Detector.d_pc (detector s))) (row_major (shape (patterns s)) j)).
Proof.
  intros F E. destruct (inav_inv _ _ _ _ F E) as (es & ps & pc & A & L & Le & P & N & U & ->). destruct F as (Fs & _).
  assert (LL : length (rev (items ++ repeat (Many whole) (length axes - length items))) = length axes) by (rewrite rev_length, app_length, repeat_length; lia).
  rewrite <- Fs in P. pose proof (selects_from axes _ es ps A LL P) as Q.
  cbn [patterns sig background detector shape at_]. exists ps. split; [split; assumption|]. set (its := rev _) in *. clearbody its. split; [reflexivity|].
  split; [intros K; assert (existsb (Nat.eqb 0) (new_shape ps) = true) by (apply existsb_exists; exists 0; split; [exact K|reflexivity]); congruence|].
  split; [intros i j H; rewrite (placed_source _ _ _ H); reflexivity|]. split; [reflexivity|]. split; [reflexivity|].
  split; [destruct (detector s); reflexivity|].
  split.
  { intros H. unfold update_pc in U. rewrite H in U. cbn [shape_eqb Nat.eqb andb] in U. injection U as <-. destruct (detector s); reflexivity. }
  intros [N1 N2]. cbn [Detector.d_pc Detector.with_pc]. rewrite <- Fs in N1, N2.
  assert (B : forall i j, placed ps i j -> Forall2 lt j (map size axes)).
  { intros i j H. eapply placed_bound; [exact LL|exact Q|exact H]. }
  assert (G : forall i j, placed ps i j -> row_major (new_shape ps) i = flat (new_shape ps) i /\ row_major (map size axes) j = flat (map size axes) j).
  { intros i j H. pose proof (f2_length (placed_within _ _ _ H)). pose proof (f2_length (B _ _ H)). split; apply row_major_flat; assumption. }
  rewrite <- Fs. unfold update_pc in U. destruct (shape_eqb (Detector.nav_shape (Detector.d_pc (detector s))) [1]) eqn:One.
  - injection U as <-. rewrite N1 in One |- *. destruct axes as [|a [|b axes]]; cbn [map shape_eqb] in One; try discriminate; [|destruct (size a =? 1); discriminate].
    rewrite andb_true_r in One. apply Nat.eqb_eq in One. cbn [map] in *. destruct its as [|it [|? ?]]; try discriminate. cbn [combine] in Q. rewrite One in *.
    destruct es as [|e [|e' es]]; try discriminate. cbn [axes_positions] in P. destruct (entry_positions 1 e) as [[l b]|] eqn:Ee; [|discriminate]. cbn [bind] in P. injection P as <-.
    assert (Hl : length l = 1).
    { destruct b.
      - unfold new_shape in N. cbn [filter snd map fst existsb] in N. rewrite orb_false_r in N. apply Nat.eqb_neq in N.
        inversion Q as [|? ? ? ? Q1 _]; subst. pose proof (selects_bound _ _ _ _ Q1) as Bd. pose proof (selects_nodup _ _ _ _ Q1) as Nd. cbn [fst] in Bd. rewrite One in Bd.
        assert (length l <= length [0]); [|cbn [length] in *; lia]. apply NoDup_incl_length; [exact Nd|]. intros k K. rewrite Forall_forall in Bd. specialize (Bd k K). left. lia.
      - inversion Q as [|? ? ? ? Q1 _]; subst. cbn [fst snd] in Q1. destruct it as [x|r]; cbn [selects] in Q1.
        + destruct Q1 as (? & ? & _ & _ & _ & E'). injection E' as ->. reflexivity.
        + destruct Q1 as (? & ? & ? & _ & _ & _ & _ & _ & E'). discriminate. }
    destruct l as [|k0 [|? ?]]; try discriminate. inversion Q as [|? ? ? ? Q1 _]; subst. pose proof (selects_bound _ _ _ _ Q1) as Bd. cbn [fst] in Bd. rewrite One in Bd. inversion Bd; subst.
    assert (k0 = 0) as -> by lia. split; [destruct b; reflexivity|]. split; [destruct b; exact N2|]. intros i j H. f_equal.
    inversion H as [|? ? k i' p j' W1 W2|p ? i' j' W2]; subst; inversion W2; subst; [|reflexivity].
    destruct k as [|[|k]]; try discriminate. injection W1 as <-. reflexivity.
  - unfold pc_getitem in U. rewrite N1, P in U. cbn [bind Detector.nav_shape Detector.pcs] in U.
    set (f := fun i => listed _ _ _ _) in U.
    assert (N0 : product (new_shape ps) <> 0).
    { clear - N. unfold product. induction (new_shape ps) as [|n sh IH]; cbn [existsb fold_right] in *; [lia|]. apply orb_false_iff in N. destruct N as [N1 N2]. apply Nat.eqb_neq in N1. specialize (IH N2). nia. }
    rewrite (proj2 (Nat.eqb_neq _ _) N0) in U.
    assert (U' : Detector.nav_shape pc = match new_shape ps with [] => [1] | sh => sh end /\ Detector.pcs pc = map f (cross (map (seq 0) (new_shape ps)))).
    { injection U as <-. destruct (new_shape ps); split; reflexivity. }
    destruct U' as [U1 U2]. rewrite U1, U2. split; [reflexivity|]. split.
    { rewrite map_length, length_cross, map_map. f_equal. erewrite map_ext; [apply map_id|]. intros n. apply seq_length. }
    intros i j H. destruct (G i j H) as [G1 G2]. rewrite G1, G2, nth_error_map, (cross_seq_at _ _ (placed_within _ _ _ H)). cbn [option_map]. unfold f, listed.
    rewrite (placed_source _ _ _ H). symmetry. apply nth_error_nth'. rewrite N2. apply flat_bound. exact (B _ _ H).
Qed.

(** Single indices that are not negative, and ranges with step 1. *)
Definition forward (ax : axis) (it : item) : Prop :=
  match it with
  | One (Index z) => (0 <= z)%Z
  | One (Value x) => forall z, value2index ax x = Some z -> (0 <= z)%Z
  | Many r => step_of (step r) = 1%Z
  end.
Definition all_forward (axes : list axis) (items : list item) : Prop :=
  Forall (fun ai => forward (fst ai) (snd ai)) (combine axes (rev (items ++ repeat (Many whole) (length axes - length items)))).
(** A crystal map with all points of the map of patterns. *)
Definition full (m : cmap) (sh : list nat) : Prop := m_shape m = sh /\ length (m_points m) = product sh.

Lemma forward_entry ax it e l b : nav_entry ax it = Some e -> forward ax it -> entry_positions (size ax) e = Some (l, b) ->
  is_negative e = false /\ marked (size ax) l = l /\ extent l = length l /\ (b = false -> length l = 1).
Proof.
  intros E F P. destruct it as [[z|x]|r]; cbn [nav_entry] in E.
  - injection E as <-. cbn [forward entry_positions is_negative] in *. split; [apply Z.ltb_ge; exact F|]. destruct (position (size ax) z) as [k|] eqn:K; [|discriminate]. injection P as <- <-.
    destruct (position_spec _ _ _ K) as [K1 _]. split; [|split; [cbn; lia|reflexivity]]. apply marked_same; [repeat constructor|constructor; [exact K1|constructor]].
  - destruct (value2index ax x) as [z|] eqn:V; [|discriminate]. injection E as <-. cbn [forward entry_positions is_negative] in *. split; [apply Z.ltb_ge, F; exact V|]. destruct (position (size ax) z) as [k|] eqn:K; [|discriminate]. injection P as <- <-.
    destruct (position_spec _ _ _ K) as [K1 _]. split; [|split; [cbn; lia|reflexivity]]. apply marked_same; [repeat constructor|constructor; [exact K1|constructor]].
  - pose proof (range_selects _ _ _ _ E P) as S0. pose proof (selects_bound _ _ _ _ S0) as B. cbn [selects] in S0. destruct S0 as (i & j & l' & _ & _ & _ & [O _] & _ & Q). injection Q as <- ->. cbn [forward] in F. rewrite F in O. specialize (O ltac:(lia)).
    unfold range_entry in E. destruct (start_index ax (from r)) as [i'|]; [|discriminate]. destruct (stop_index ax (until r)) as [j'|]; [|discriminate]. cbn [bind] in E.
    assert (e = Sl i' j' (step r)) as -> by (destruct (step r) as [[|z|z]|]; try discriminate; injection E as <-; reflexivity).
    split; [reflexivity|]. split; [apply marked_same; assumption|]. split; [|discriminate]. cbn [entry_positions] in P. injection P as <-.
    pose proof (positions_one (size ax) i' j' (step r) F) as Q. destruct (SignalSlices.indices _ _) as [u v]. rewrite Q, extent_seq, seq_length. reflexivity.
Qed.
Lemma forward_entries axes : forall its es ps, length its = length axes -> Forall2 (fun ai e => nav_entry (fst ai) (snd ai) = Some e) (combine axes its) es ->
  Forall (fun ai => forward (fst ai) (snd ai)) (combine axes its) -> axes_positions (map size axes) es = Some ps ->
  existsb is_negative es = false /\ map (fun np => marked (fst np) (fst (snd np))) (combine (map size axes) ps) = map fst ps
  /\ map extent (map fst ps) = map (fun p => length (fst p)) ps /\ Forall (fun p => snd p = false -> length (fst p) = 1) ps.
Proof.
  induction axes as [|ax axes IH]; intros [|it its] es ps L A F P; try discriminate; cbn [combine] in *; inversion A as [|? e ? es' A1 A2]; inversion F as [|? ? F1 F2]; subst; cbn [map axes_positions combine fst snd] in *.
  - injection P as <-. repeat split; constructor.
  - destruct (entry_positions (size ax) e) as [[l b]|] eqn:Q; [|discriminate]. cbn [bind] in P. destruct (axes_positions (map size axes) es') as [r|] eqn:G; [|discriminate]. cbn [bind] in P. injection P as <-.
    destruct (forward_entry _ _ _ _ _ A1 F1 Q) as (X1 & X2 & X3 & X4). destruct (IH its es' r ltac:(now injection L) A2 F2 G) as (Y1 & Y2 & Y3 & Y4).
    cbn [existsb combine map fst snd]. rewrite X1, X2, X3, Y1, Y2, Y3. repeat split. constructor; [exact X4|exact Y4].
Qed.

(** The crystal map has the points of the selected positions, and the shape of the map of patterns (one point if a single pattern is left). *)
Theorem C104_inav_crystal_map_partial axes items s s' m : fits axes s -> 1 <= length axes <= 2 -> all_forward axes items ->
  xmap s = Some m -> full m (shape (patterns s)) -> inav axes items s = Some s' ->
  exists m', xmap s' = Some m' /\ m_shape m' = match shape (patterns s') with [] => [1] | sh => sh end
    /\ length (m_points m') = product (shape (patterns s'))
    /\ forall ls i j, selects_all axes items ls -> placed ls i j ->
         nth_error (m_points m') (row_major (shape (patterns s')) i) = nth_error (m_points m) (row_major (shape (patterns s)) j).
Proof.
  intros F L2 W X [M1 M2] E. destruct (inav_inv _ _ _ _ F E) as (es & ps & pc & A & L & Le & P & N & U & ->). destruct F as (Fs & _).
  cbn [patterns xmap shape]. rewrite X. cbn [option_map]. rewrite <- Fs in *.
  assert (LL : length (rev (items ++ repeat (Many whole) (length axes - length items))) = length axes) by (rewrite rev_length, app_length, repeat_length; lia).
  pose proof (selects_from axes _ es ps A LL P) as Q. unfold all_forward in W. destruct (forward_entries axes _ es ps LL A W P) as (X1 & X2 & X3 & X4).
  eexists. split; [reflexivity|]. unfold update_xmap. rewrite X1. unfold xmap_getitem. rewrite M1, P. cbn [bind]. rewrite X2, X3.
  set (pts := map (listed (map size axes) (m_points m) 0) (cross (map fst ps))).
  assert (Pt : forall sh : list nat, m_points (if length (new_shape ps) <? length (map (fun p : list nat * bool => length (fst p)) ps) then CMap sh pts else CMap (map (fun p => length (fst p)) ps) pts) = pts) by (intros sh; destruct (_ <? _); reflexivity).
  cbn [m_shape m_points]. rewrite Pt.
  assert (Ln : length pts = product (new_shape ps)).
  { unfold pts. rewrite map_length, length_cross, map_map. clear - X4. induction X4 as [|[l b] ps H _ IH]; [reflexivity|]. unfold product, new_shape in *. cbn [fst snd] in H. destruct b; cbn [map fold_right filter snd fst]; rewrite IH; [reflexivity|].
    rewrite (H eq_refl). apply Nat.mul_1_l. }
  split; [|split; [exact Ln|]].
  - clear - L2 Le P X4. assert (Lp : length ps = length axes).
    { pose proof (f2_length (axes_positions_all (map size axes) es ps ltac:(rewrite map_length; exact Le) P)) as Q. rewrite combine_length, map_length in Q. lia. }
    clear Le P. destruct axes as [|ax [|ay [|? ?]]]; cbn [length] in *; try lia; destruct ps as [|[l b] ps]; cbn [length] in Lp; try lia.
    + destruct ps; [|cbn [length] in Lp; lia]. inversion X4 as [|? ? H _]; subst. cbn [fst snd] in H. destruct b; cbn [new_shape filter snd map fst length Nat.ltb Nat.leb m_shape]; [reflexivity|]. rewrite (H eq_refl). reflexivity.
    + destruct ps as [|[k c] [|? ?]]; cbn [length] in Lp; try lia. inversion X4 as [|? ? H X5]; inversion X5 as [|? ? H' _]; subst. cbn [fst snd] in *.
      destruct b, c; cbn [new_shape filter snd map fst length Nat.ltb Nat.leb m_shape]; try reflexivity.
      * rewrite (H' eq_refl). destruct (Nat.eqb_spec (length l) 1) as [->|]; reflexivity.
      * rewrite (H eq_refl). reflexivity.
      * rewrite (H eq_refl), (H' eq_refl). reflexivity.
  - intros ls i j Sl Pl. assert (ls = ps) as -> by (eapply selects_all_unique; [exact Sl|split; assumption]).
    pose proof (placed_bound axes _ ps i j LL Q Pl) as B. pose proof (f2_length (placed_within _ _ _ Pl)) as L3. pose proof (f2_length B) as L4.
    rewrite (row_major_flat _ i) by exact L3. rewrite (row_major_flat _ j) by exact L4.
    destruct (placed_in_lists _ _ _ Pl) as (_ & i' & I1 & I2 & I3). rewrite <- I3. unfold pts. rewrite nth_error_map, (cross_at _ _ _ I1 I2). cbn [option_map]. unfold listed. symmetry. apply nth_error_nth'.
    rewrite M2. apply flat_bound. exact B.
Qed.

(** *** Steps and reversed ranges: refuted *)

Lemma extent_step n a b s : (0 < step_of s)%Z -> 1 <= length (positions n a b s) ->
  extent (positions n a b s) = (length (positions n a b s) - 1) * Z.to_nat (step_of s) + 1.
Proof.
  intros H. unfold positions. fold (step_of s). set (st := step_of s) in *. clearbody st. destruct (slice_indices (Z.of_nat n) a b st) as [i j] eqn:E.
  assert (I : (0 <= i)%Z).
  { unfold slice_indices in E. destruct (Z.ltb_spec st 0) as [?|_]; [lia|]. apply (f_equal fst) in E. cbn [fst] in E. subst i. destruct a as [a|]; [destruct (Z.ltb_spec a 0)|]; lia. }
  rewrite map_length, seq_length. generalize (count i j st) as c. intros [|c] L; [lia|]. rewrite seq_S, map_app, Nat.add_0_l. cbn [map].
  set (f := fun k => Z.to_nat (i + Z.of_nat k * st)).
  assert (G : forall l, extent (map f (seq 0 c) ++ [l]) = match c with 0 => 1 | _ => l - f 0 + 1 end).
  { intros l. unfold extent. destruct c as [|c]; cbn [seq map app]; [cbn [last]; lia|]. change (f 0 :: map f (seq 1 c) ++ [l]) with ((f 0 :: map f (seq 1 c)) ++ [l]). rewrite last_last. reflexivity. }
  change (Z.to_nat (i + Z.of_nat c * st)) with (f c). rewrite G. destruct c as [|c]; [lia|]. unfold f. nia.
Qed.

(** A step of two or more along the rows of the map which leaves several rows: the crystal map does not have the shape of the patterns. *)
Theorem C104_inav_step_crystal_map_refuted ay ax rx ry s s' m : fits [ay; ax] s -> (2 <= step_of (step ry))%Z ->
  xmap s = Some m -> full m (shape (patterns s)) -> inav [ay; ax] [Many rx; Many ry] s = Some s' -> 2 <= hd 0 (shape (patterns s')) ->
  exists m', xmap s' = Some m' /\ hd 0 (m_shape m') = (hd 0 (shape (patterns s')) - 1) * Z.to_nat (step_of (step ry)) + 1 /\ m_shape m' <> shape (patterns s').
Proof.
  intros F St X [M1 M2] E. destruct (inav_inv _ _ _ _ F E) as (es & ps & pc & A & L & Le & P & N & U & ->). destruct F as (Fs & _).
  cbn [patterns xmap shape]. rewrite X. cbn [option_map]. intros H2. cbn [map] in Fs. rewrite <- Fs in *.
  cbn [length Nat.sub repeat app rev combine] in A. inversion A as [|? ey ? ? A1 A2]; subst. inversion A2 as [|? ex ? ? A3 A4]; subst. inversion A4; subst. clear A A2 A4. cbn [fst snd nav_entry] in A1, A3.
  unfold range_entry in A1, A3. destruct (start_index ay (from ry)) as [i|]; [|discriminate]. destruct (stop_index ay (until ry)) as [j|]; [|discriminate].
  destruct (start_index ax (from rx)) as [i'|]; [|discriminate]. destruct (stop_index ax (until rx)) as [j'|]; [|discriminate]. cbn [bind] in A1, A3.
  assert (ey = Sl i j (step ry)) as -> by (destruct (step ry) as [[|z|z]|]; try discriminate; injection A1 as <-; reflexivity).
  assert (ex = Sl i' j' (step rx)) as -> by (destruct (step rx) as [[|z|z]|]; try discriminate; injection A3 as <-; reflexivity).
  cbn [axes_positions entry_positions bind] in P. injection P as <-. cbn [new_shape filter snd map fst length hd] in *.
  eexists. split; [reflexivity|]. unfold update_xmap. cbn [existsb is_negative orb]. unfold xmap_getitem. rewrite M1. cbn [axes_positions entry_positions bind combine map fst snd m_shape length Nat.ltb Nat.leb hd].
  destruct (positions_chosen (size ay) i j (step ry) ltac:(lia)) as [[O _] C]. specialize (O ltac:(lia)).
  rewrite (marked_same _ _ O). 2:{ apply Forall_forall. intros k. apply positions_bound. lia. }
  rewrite extent_step by lia. split; [reflexivity|]. intros K. injection K as K _. nia.
Qed.
Lemma positions_reversed n : positions n None None (Some (-1)%Z) = map (fun k => n - 1 - k) (seq 0 n).
Proof.
  unfold positions, slice_indices. cbn [Z.ltb Z.compare].
  assert (C : count (Z.of_nat n - 1) (-1) (-1) = n).
  { unfold count. cbn [Z.ltb Z.compare]. change (- (-1))%Z with 1%Z. rewrite Z.div_1_r. destruct (Z.ltb_spec (-1) (Z.of_nat n - 1)); lia. }
  rewrite C. apply map_ext_in. intros k K. apply in_seq in K. lia.
Qed.
(** A map in reverse order (rows): the patterns are reversed, the crystal map is not. *)
Theorem C104_inav_reversed_crystal_map_refuted ay ax s s' m : fits [ay; ax] s -> xmap s = Some m -> full m (shape (patterns s)) ->
  inav [ay; ax] [Many whole; Many (Range None None (Some (-1)%Z))] s = Some s' ->
  xmap s' = xmap s /\ shape (patterns s') = shape (patterns s)
  /\ forall r c, r < size ay -> c < size ax -> at_ (patterns s') [r; c] = at_ (patterns s) [size ay - 1 - r; c].
Proof.
  intros F X [M1 M2] E. destruct (inav_inv _ _ _ _ F E) as (es & ps & pc & A & L & Le & P & N & U & ->). destruct F as (Fs & _).
  cbn [patterns xmap shape at_]. rewrite X. cbn [option_map]. cbn [map] in Fs. rewrite <- Fs in *.
  cbn [length Nat.sub repeat app rev combine] in A. inversion A as [|? ey ? ? A1 A2]; subst. inversion A2 as [|? ex ? ? A3 A4]; subst. inversion A4; subst. clear A A2 A4.
  cbn [fst snd nav_entry range_entry start_index stop_index bind from until step whole] in A1, A3. unfold range_entry in A1, A3. cbn [start_index stop_index bind from until step whole] in A1, A3. injection A1 as <-. injection A3 as <-.
  cbn [axes_positions entry_positions bind] in P. injection P as <-.
  assert (Qx : positions (size ax) None None None = seq 0 (size ax)).
  { pose proof (positions_one (size ax) None None None eq_refl) as Q. unfold SignalSlices.indices in Q. cbn [SignalSlices.start SignalSlices.stop] in Q. rewrite Nat.sub_0_r in Q. exact Q. }
  pose proof (positions_reversed (size ay)) as Qy.
  rewrite Qx, Qy in *. cbn [new_shape filter snd map fst length] in *. rewrite map_length, !seq_length in *.
  cbn [existsb] in N. apply orb_false_iff in N. destruct N as [N1 N2]. rewrite orb_false_r in N2. apply Nat.eqb_neq in N1, N2.
  assert (My : marked (size ay) (map (fun k => size ay - 1 - k) (seq 0 (size ay))) = seq 0 (size ay)).
  { apply (sorted_same (P := lt)); [lia|apply marked_sorted|apply sorted_seq|]. intros k. rewrite in_marked, in_seq, in_map_iff. split; [lia|]. intros K. split; [lia|]. exists (size ay - 1 - k). split; [lia|]. apply in_seq. lia. }
  split; [|split; [reflexivity|]].
  - f_equal. unfold update_xmap. cbn [existsb is_negative orb]. unfold xmap_getitem. rewrite M1. cbn [axes_positions entry_positions bind combine map fst snd m_shape length Nat.ltb Nat.leb].
    rewrite Qx, Qy, My, (marked_same _ _ (sorted_seq 0 (size ax))) by (apply Forall_forall; intros k K; apply in_seq in K; lia).
    rewrite !extent_seq. destruct m as [sh pts]. cbn [m_shape m_points] in *. subst sh. f_equal. exact (listed_all [size ay; size ax] pts 0 M2).
  - intros r c Hr Hc. f_equal. cbn [source hd tl]. f_equal.
    + erewrite nth_error_nth; [reflexivity|]. rewrite nth_error_map, (nth_error_nth' _ 0) by (rewrite seq_length; exact Hr). rewrite seq_nth by exact Hr. reflexivity.
    + rewrite seq_nth by exact Hc. reflexivity.
Qed.

(** ** isig *)

(** Axes, detector and patterns have the same shape. *)
Definition fits_detector (ay ax : axis) (s : signal) : Prop :=
  sig s = (size ay, size ax) /\ DetectorProofs.valid (detector s)
  /\ Detector.d_ny (detector s) = Z.of_nat (size ay) /\ Detector.d_nx (detector s) = Z.of_nat (size ax)
  /\ (forall i, shape (at_ (patterns s) i) = [size ay; size ax]) /\ (forall b, background s = Some b -> shape b = [size ay; size ax]).
(** An array cut to rows [ly] and columns [lx] of another one. *)
Definition cut_of (ly lx : list nat) (a a' : arr R) : Prop :=
  shape a' = [length ly; length lx]
  /\ forall y x ky kx, nth_error ly y = Some ky -> nth_error lx x = Some kx -> at_ a' [y; x] = at_ a [ky; kx].

Lemma range_entry_inv ax r e : range_entry ax r = Some e ->
  exists i j, start_index ax (from r) = Some i /\ stop_index ax (until r) = Some j /\ e = Sl i j (step r).
Proof.
  unfold range_entry. destruct (start_index ax (from r)) as [i|]; [|discriminate]. destruct (stop_index ax (until r)) as [j|]; [|discriminate]. cbn [bind]. intros E.
  exists i, j. repeat split. destruct (step r) as [[|z|z]|]; try discriminate; injection E as <-; reflexivity.
Qed.
Lemma isig_inv ay ax ys xs s s' : fits_detector ay ax s -> isig ay ax ys xs s = Some s' ->
  exists a b c d, let ly := positions (size ay) a b (step ys) in let lx := positions (size ax) c d (step xs) in
    start_index ay (from ys) = Some a /\ stop_index ay (until ys) = Some b /\ start_index ax (from xs) = Some c /\ stop_index ax (until xs) = Some d
    /\ selects ay (Many ys) (ly, true) /\ selects ax (Many xs) (lx, true)
    /\ length ly <> 0 /\ length lx <> 0 /\ sig s' = (length ly, length lx) /\ shape (patterns s') = shape (patterns s)
    /\ (forall i, cut_of ly lx (at_ (patterns s) i) (at_ (patterns s') i))
    /\ match background s, background s' with Some b, Some b' => cut_of ly lx b b' | None, None => True | _, _ => False end
    /\ detector s' = SignalSlices.update_detector (length ly) (length lx) (SignalSlices.Slice a b) (SignalSlices.Slice c d) (detector s)
    /\ xmap s' = xmap s.
Proof.
  intros (Fs & _ & _ & _ & Fp & Fb) E. unfold isig in E. destruct (range_entry ay ys) as [ey|] eqn:Ey; [|discriminate]. destruct (range_entry ax xs) as [ex|] eqn:Ex; [|discriminate]. cbn [bind] in E.
  destruct (range_entry_inv _ _ _ Ey) as (a & b & A1 & A2 & ->). destruct (range_entry_inv _ _ _ Ex) as (c & d & A3 & A4 & ->).
  exists a, b, c, d. intros ly lx. cbn [length_of entry_positions fst] in E. rewrite Fs in E. cbn [fst snd] in E. fold ly lx in E.
  destruct (length ly =? 0) eqn:N1; [discriminate|]. destruct (length lx =? 0) eqn:N2; [discriminate|]. cbn [orb] in E. injection E as <-. cbn [sig shape patterns at_ background detector xmap ends].
  apply Nat.eqb_neq in N1, N2.
  assert (K : forall p, shape p = [size ay; size ax] -> cut_of ly lx p (cut [Sl a b (step ys); Sl c d (step xs)] p)).
  { intros p Sp. unfold cut, getitem. rewrite Sp. cbn [axes_positions entry_positions bind]. fold ly lx. split; [reflexivity|].
    intros y x ky kx H1 H2. cbn [at_ source hd tl]. rewrite (nth_error_nth _ _ 0 H1), (nth_error_nth _ _ 0 H2). reflexivity. }
  do 4 (split; [assumption|]). split; [eapply range_selects; [exact Ey|reflexivity]|]. split; [eapply range_selects; [exact Ex|reflexivity]|].
  do 2 (split; [assumption|]). do 2 (split; [reflexivity|]). split; [intros i; apply K, Fp|]. split; [|split; reflexivity].
  destruct (background s) as [g|]; cbn [option_map]; [apply K, Fb; reflexivity|exact I].
Qed.

(** For all ranges, with steps, negative indices and values: patterns and background are cut to the selected rows and columns, in the
    order of the selection, and the map stays. *)
Theorem C104_isig ay ax ys xs s s' : fits_detector ay ax s -> isig ay ax ys xs s = Some s' ->
  exists ly lx, selects ay (Many ys) (ly, true) /\ selects ax (Many xs) (lx, true) /\ ly <> [] /\ lx <> []
    /\ sig s' = (length ly, length lx) /\ shape (patterns s') = shape (patterns s)
    /\ (forall i, cut_of ly lx (at_ (patterns s) i) (at_ (patterns s') i))
    /\ match background s, background s' with Some b, Some b' => cut_of ly lx b b' | None, None => True | _, _ => False end
    /\ xmap s' = xmap s.
Proof.
  intros F E. destruct (isig_inv _ _ _ _ _ _ F E) as (a & b & c & d & _ & _ & _ & _ & H1 & H2 & H3 & H4 & H5 & H6 & H7 & H8 & _ & H9).
  exists (positions (size ay) a b (step ys)), (positions (size ax) c d (step xs)). repeat (split; [first [assumption|intros K; rewrite K in *; cbn [length] in *; congruence]|]). exact H9.
Qed.

(** Both ends on the axis, or the range starts with it; no step. *)
Definition plain (ax : axis) (r : range) : Prop :=
  step_of (step r) = 1%Z /\
  match from r, until r with
  | None, None => True
  | None, Some (Index j) => (0 <= j)%Z
  | None, Some (Value y) => exists j, value2index ax y = Some j /\ (0 <= j)%Z
  | Some (Index i), None => i = 0%Z
  | Some (Value x), None => value2index ax x = Some 0%Z
  | Some (Index i), Some (Index j) => (0 <= i)%Z /\ (0 <= j)%Z
  | Some (Value x), Some (Index j) => exists i, value2index ax x = Some i /\ (0 <= i)%Z /\ (0 <= j)%Z
  | Some (Index i), Some (Value y) => exists j, value2index ax y = Some j /\ (0 <= i)%Z /\ (0 <= j)%Z
  | Some (Value x), Some (Value y) => exists i j, value2index ax x = Some i /\ value2index ax y = Some j /\ (0 <= i)%Z /\ (0 <= j)%Z
  end.
Lemma plain_good ax r i j : plain ax r -> start_index ax (from r) = Some i -> stop_index ax (until r) = Some j ->
  SignalSlicesProofs.good (size ax) (SignalSlices.Slice i j).
Proof.
  intros [_ P] A B. unfold SignalSlicesProofs.good. cbn [SignalSlices.start SignalSlices.stop].
  destruct (from r) as [[a|x]|], (until r) as [[b|y]|]; cbn [start_index stop_index] in A, B;
    repeat match goal with H : exists _, _ |- _ => destruct H | H : _ /\ _ |- _ => destruct H | H : value2index ax ?x = Some _ |- _ => rewrite H in * end;
    repeat match goal with H : Some _ = Some _ |- _ => injection H as <- end; subst; repeat split; try lia; auto; try reflexivity.
Qed.

(** Without steps, and for ranges between two places on the axis or from its start: the detector has the shape of the patterns, and
    every pixel keeps its gnomonic coordinates, for each PC. *)
Theorem C104_isig_detector_partial ay ax ys xs s s' : fits_detector ay ax s -> plain ay ys -> plain ax xs -> isig ay ax ys xs s = Some s' ->
  let d := detector s in let d' := detector s' in
  Detector.d_ny d' = Z.of_nat (fst (sig s')) /\ Detector.d_nx d' = Z.of_nat (snd (sig s'))
  /\ Detector.d_tilt d' = Detector.d_tilt d /\ Detector.d_azimuthal d' = Detector.d_azimuthal d /\ Detector.d_sample_tilt d' = Detector.d_sample_tilt d
  /\ Detector.d_px_size d' = Detector.d_px_size d /\ length (Detector.pcs (Detector.d_pc d')) = length (Detector.pcs (Detector.d_pc d))
  /\ forall ly lx, selects ay (Many ys) (ly, true) -> selects ax (Many xs) (lx, true) ->
     forall y x ky kx n p p', nth_error ly y = Some ky -> nth_error lx x = Some kx ->
       nth_error (Detector.pcs (Detector.d_pc d)) n = Some p -> nth_error (Detector.pcs (Detector.d_pc d')) n = Some p' -> Detector.pcz p <> 0%R ->
       Detector.to_gnomonic d' p' (INR y, INR x) = Detector.to_gnomonic d p (INR ky, INR kx).
Proof.
  intros F Py Px E d d'. destruct (isig_inv _ _ _ _ _ _ F E) as (a & b & c & e & B1 & B2 & B3 & B4 & H1 & H2 & H3 & H4 & H5 & H6 & H7 & H8 & H9 & _).
  pose proof (plain_good _ _ _ _ Py B1 B2) as Gy. pose proof (plain_good _ _ _ _ Px B3 B4) as Gx.
  destruct F as (Fs & Hv & Ey & Ex & _).
  pose proof (positions_one (size ay) a b (step ys) (proj1 Py)) as Qy. pose proof (positions_one (size ax) c e (step xs) (proj1 Px)) as Qx.
  destruct (SignalSlices.indices (size ay) (SignalSlices.Slice a b)) as [y0 y1] eqn:Iy. destruct (SignalSlices.indices (size ax) (SignalSlices.Slice c e)) as [x0 x1] eqn:Ix.
  rewrite Qy, Qx in *. rewrite !seq_length in *. destruct (SignalSlicesProofs.indices_bounds _ _ _ _ Iy) as [I1 I2]. destruct (SignalSlicesProofs.indices_bounds _ _ _ _ Ix) as [I3 I4].
  subst d d'. rewrite H9, H5. cbn [fst snd]. unfold SignalSlices.update_detector. rewrite (SignalSlicesProofs.good_extent (size ay) (size ax) _ _ y0 y1 x0 x1) by (assumption || lia).
  destruct (SignalSlicesProofs.crop_some (detector s) (Z.of_nat y0) (Z.of_nat y1) (Z.of_nat x0) (Z.of_nat x1)) as [d' Ed]; try lia. rewrite Ed.
  destruct (DetectorProofs.crop_inside (detector s) (Z.of_nat y0) (Z.of_nat y1) (Z.of_nat x0) (Z.of_nat x1) d') as (_ & _ & Q1 & Q2 & Q3 & Q4 & Q5 & Q6 & Q7 & Q8 & Q9 & Q10); try lia; [exact Ed|].
  split; [lia|]. split; [lia|]. do 4 (split; [congruence|]). split; [rewrite Q10, map_length; reflexivity|].
  intros ly lx Sy Sx. pose proof (selects_unique _ _ _ _ Sy H1) as Uy. pose proof (selects_unique _ _ _ _ Sx H2) as Ux. injection Uy as ->. injection Ux as ->.
  intros y x ky kx n p p' Ny Nx Hp Hp' Hz.
  assert (Ly : y < y1 - y0) by (rewrite <- (seq_length (y1 - y0) y0); apply nth_error_Some; congruence).
  assert (Lx : x < x1 - x0) by (rewrite <- (seq_length (x1 - x0) x0); apply nth_error_Some; congruence).
  apply (nth_error_nth _ _ 0) in Ny, Nx. rewrite seq_nth in Ny by exact Ly. rewrite seq_nth in Nx by exact Lx. subst ky kx.
  rewrite (DetectorProofs.crop_gnomonic (detector s) (Z.of_nat y0) (Z.of_nat y1) (Z.of_nat x0) (Z.of_nat x1) d' n p p') by (auto; lia).
  rewrite <- !INR_IZR_INZ, !plus_INR. f_equal. f_equal; lra.
Qed.

(** *** Steps: refuted *)

Lemma gnomonic_row d p y x y' x' : DetectorProofs.valid d -> Detector.pcz p <> 0%R ->
  Detector.to_gnomonic d p (y, x) = Detector.to_gnomonic d p (y', x') -> y = y' /\ x = x'.
Proof.
  intros V Z0 E. apply (f_equal (Detector.to_pixel d p)) in E. rewrite !DetectorProofs.pixel_gnomonic in E by assumption. injection E as -> ->. auto.
Qed.
Lemma positions_whole n : positions n None None None = seq 0 n.
Proof. pose proof (positions_one n None None None eq_refl) as Q. unfold SignalSlices.indices in Q. cbn [SignalSlices.start SignalSlices.stop] in Q. rewrite Nat.sub_0_r in Q. exact Q. Qed.
Lemma positions_length n a b s : step_of s <> 0%Z -> length (positions n a b s) <= n.
Proof.
  intros H. replace n with (length (seq 0 n)) at 2 by apply seq_length. apply NoDup_incl_length.
  - destruct (positions_chosen n a b s H) as [[O1 O2] _]. destruct (Z_lt_dec 0 (step_of s)).
    + eapply sorted_nodup; [|apply O1; assumption]. intros k. lia.
    + eapply sorted_nodup; [|apply O2; lia]. intros k. lia.
  - intros k K. apply in_seq. pose proof (positions_bound n a b s k H K). lia.
Qed.
(** isig[:, ::k], for any step: the detector has the shape of the patterns, but its rows are the first rows of the detector before. *)
Lemma isig_whole_rows ay ax st s s' : fits_detector ay ax s -> isig ay ax (Range None None st) whole s = Some s' ->
  Detector.d_ny (detector s') = Z.of_nat (fst (sig s'))
  /\ sig s' = (length (positions (size ay) None None st), size ax)
  /\ (forall i, cut_of (positions (size ay) None None st) (seq 0 (size ax)) (at_ (patterns s) i) (at_ (patterns s') i))
  /\ forall y x n p p', nth_error (Detector.pcs (Detector.d_pc (detector s))) n = Some p ->
       nth_error (Detector.pcs (Detector.d_pc (detector s'))) n = Some p' -> Detector.pcz p <> 0%R ->
       Detector.to_gnomonic (detector s') p' (y, x) = Detector.to_gnomonic (detector s) p (y, x).
Proof.
  intros F E. destruct (isig_inv _ _ _ _ _ _ F E) as (a & b & c & e & B1 & B2 & B3 & B4 & H1 & H2 & H3 & H4 & H5 & H6 & H7 & H8 & H9 & _).
  cbn [from until step whole start_index stop_index] in *. injection B1 as <-. injection B2 as <-. injection B3 as <-. injection B4 as <-.
  destruct F as (Fs & Hv & Ey & Ex & _). rewrite positions_whole in *. rewrite seq_length in *. set (ly := positions (size ay) None None st) in *.
  assert (Ln : length ly <= size ay).
  { apply positions_length. destruct H1 as (i & j & l & _ & _ & H0 & _). exact H0. }
  rewrite H9, H5. cbn [fst snd]. unfold SignalSlices.update_detector, SignalSlices.extent. cbn [SignalSlices.start SignalSlices.stop].
  destruct (SignalSlicesProofs.crop_some (detector s) 0 (Z.of_nat (length ly)) 0 (Z.of_nat (size ax))) as [d' Ed]; try lia. rewrite Ed.
  destruct (DetectorProofs.crop_inside (detector s) 0 (Z.of_nat (length ly)) 0 (Z.of_nat (size ax)) d') as (_ & _ & Q1 & _); try lia; [exact Ed|].
  split; [lia|]. split; [reflexivity|]. split; [exact H7|].
  intros y x n p p' Hp Hp' Hz. rewrite (DetectorProofs.crop_gnomonic (detector s) 0 (Z.of_nat (length ly)) 0 (Z.of_nat (size ax)) d' n p p' y x) by (auto; lia).
  rewrite !Rplus_0_r. reflexivity.
Qed.
Lemma up_from_zero n st y : (0 < st)%Z -> y < length (positions n None None (Some st)) -> nth_error (positions n None None (Some st)) y = Some (y * Z.to_nat st).
Proof.
  intros H. unfold positions. destruct (slice_indices (Z.of_nat n) None None st) as [i j] eqn:E. rewrite map_length, seq_length. intros L.
  assert (i = 0%Z) as -> by (unfold slice_indices in E; destruct (Z.ltb_spec st 0); [lia|]; injection E as <- _; reflexivity).
  rewrite nth_error_map, (nth_error_nth' _ 0) by (rewrite seq_length; exact L). rewrite seq_nth by exact L. cbn [option_map]. f_equal. nia.
Qed.
(** isig[:, ::k]: row y of a pattern is row k y from before, but the detector has it at row y. *)
Theorem C104_isig_step_refuted ay ax k s s' : fits_detector ay ax s -> (2 <= k)%Z -> isig ay ax (Range None None (Some k)) whole s = Some s' ->
  Detector.d_ny (detector s') = Z.of_nat (fst (sig s'))
  /\ forall y x, 1 <= y < fst (sig s') -> x < snd (sig s') ->
     (forall i, at_ (at_ (patterns s') i) [y; x] = at_ (at_ (patterns s) i) [y * Z.to_nat k; x])
     /\ forall n p p', nth_error (Detector.pcs (Detector.d_pc (detector s))) n = Some p ->
          nth_error (Detector.pcs (Detector.d_pc (detector s'))) n = Some p' -> Detector.pcz p <> 0%R ->
          Detector.to_gnomonic (detector s') p' (INR y, INR x) <> Detector.to_gnomonic (detector s) p (INR (y * Z.to_nat k), INR x).
Proof.
  intros F K E. destruct (isig_whole_rows _ _ _ _ _ F E) as (H1 & H2 & H3 & H4). destruct F as (_ & Hv & _). split; [exact H1|]. rewrite H2. cbn [fst snd].
  intros y x Ly Lx. split.
  - intros i. destruct (H3 i) as [_ A]. apply A; [apply up_from_zero; lia|]. rewrite (nth_error_nth' _ 0) by (rewrite seq_length; exact Lx). rewrite seq_nth by exact Lx. reflexivity.
  - intros n p p' Hp Hp' Hz Q. rewrite (H4 _ _ _ _ _ Hp Hp' Hz) in Q. apply gnomonic_row in Q; [|assumption..]. destruct Q as [Q _]. apply INR_eq in Q. nia.
Qed.
(** isig[:, ::-1]: the patterns are upside down, the detector is not. *)
Theorem C104_isig_reversed_refuted ay ax s s' : fits_detector ay ax s -> isig ay ax (Range None None (Some (-1)%Z)) whole s = Some s' ->
  sig s' = sig s /\
  forall y x, y < fst (sig s) -> x < snd (sig s) ->
     (forall i, at_ (at_ (patterns s') i) [y; x] = at_ (at_ (patterns s) i) [fst (sig s) - 1 - y; x])
     /\ forall n p p', nth_error (Detector.pcs (Detector.d_pc (detector s))) n = Some p ->
          nth_error (Detector.pcs (Detector.d_pc (detector s'))) n = Some p' -> Detector.pcz p <> 0%R ->
          Detector.to_gnomonic (detector s') p' (INR y, INR x) = Detector.to_gnomonic (detector s) p (INR y, INR x).
Proof.
  intros F E. destruct (isig_whole_rows _ _ _ _ _ F E) as (H1 & H2 & H3 & H4). destruct F as (Fs & Hv & _). rewrite positions_reversed in *. rewrite map_length, seq_length in H2.
  rewrite H2, Fs. cbn [fst snd]. split; [reflexivity|]. intros y x Ly Lx. split.
  - intros i. destruct (H3 i) as [_ A]. apply A; [rewrite nth_error_map|]; (rewrite (nth_error_nth' _ 0) by (rewrite seq_length; assumption)); rewrite seq_nth by assumption; reflexivity.
  - intros n p p' Hp Hp' Hz. exact (H4 _ _ _ _ _ Hp Hp' Hz).
Qed.
(** isig[:, a:b:k] between two indices: the detector has b - a rows, the patterns fewer, so that the signal would refuse it. *)
Theorem C104_isig_bounded_step_refuted ay ax a b k s s' nav : fits_detector ay ax s -> (2 <= k)%Z -> (0 <= a)%Z -> (a + 1 < b <= Z.of_nat (size ay))%Z ->
  isig ay ax (Range (Some (Index a)) (Some (Index b)) (Some k)) whole s = Some s' ->
  Detector.d_ny (detector s') = (b - a)%Z /\ (Z.of_nat (fst (sig s')) < b - a)%Z /\ SignalHistory.detector_is_compatible (detector s') nav (sig s') = false.
Proof.
  intros F K A B E. destruct (isig_inv _ _ _ _ _ _ F E) as (a' & b' & c & e & B1 & B2 & B3 & B4 & H1 & H2 & H3 & H4 & H5 & H6 & H7 & H8 & H9 & _).
  cbn [from until step whole start_index stop_index] in *. injection B1 as <-. injection B2 as <-. injection B3 as <-. injection B4 as <-.
  destruct F as (Fs & Hv & Ey & Ex & _). rewrite positions_whole in *. rewrite seq_length in *.
  assert (Ln : (Z.of_nat (length (positions (size ay) (Some a) (Some b) (Some k))) < b - a)%Z).
  { unfold positions, slice_indices. destruct (Z.ltb_spec k 0); [lia|]. destruct (Z.ltb_spec a 0); [lia|]. destruct (Z.ltb_spec b 0); [lia|]. rewrite !Z.min_l by lia.
    rewrite map_length, seq_length. unfold count. destruct (Z.ltb_spec k 0); [lia|]. destruct (Z.ltb_spec a b); [|lia].
    pose proof (Z.div_lt (b - a - 1) k ltac:(lia) ltac:(lia)). pose proof (Z.div_pos (b - a - 1) k ltac:(lia) ltac:(lia)). lia. }
  set (ly := positions (size ay) _ _ _) in *. rewrite H9, H5. cbn [fst snd]. unfold SignalSlices.update_detector, SignalSlices.extent. cbn [SignalSlices.start SignalSlices.stop].
  destruct (SignalSlicesProofs.crop_some (detector s) a b 0 (Z.of_nat (size ax))) as [d' Ed]; try lia. rewrite Ed.
  destruct (DetectorProofs.crop_inside (detector s) a b 0 (Z.of_nat (size ax)) d') as (_ & _ & Q1 & _); try lia; [exact Ed|].
  split; [exact Q1|]. split; [exact Ln|]. unfold SignalHistory.detector_is_compatible. cbn [fst snd]. rewrite Q1. destruct (Z.eqb_spec (b - a) (Z.of_nat (length ly))); [lia|reflexivity].
Qed.

(** ** isig, then inav *)

Lemma isig_nav ay ax ys xs s s' : fits_detector ay ax s -> plain ay ys -> plain ax xs -> isig ay ax ys xs s = Some s' ->
  Detector.nav_shape (Detector.d_pc (detector s')) = Detector.dstack_shape (Detector.nav_shape (Detector.d_pc (detector s)))
  /\ shape (patterns s') = shape (patterns s) /\ fits_detector ay ax s.
Proof.
  intros F Py Px E. destruct (isig_inv _ _ _ _ _ _ F E) as (a & b & c & e & B1 & B2 & B3 & B4 & H1 & H2 & H3 & H4 & H5 & H6 & H7 & H8 & H9 & _).
  pose proof (plain_good _ _ _ _ Py B1 B2) as Gy. pose proof (plain_good _ _ _ _ Px B3 B4) as Gx. split; [|split; assumption].
  destruct F as (Fs & Hv & Ey & Ex & _).
  pose proof (positions_one (size ay) a b (step ys) (proj1 Py)) as Qy. pose proof (positions_one (size ax) c e (step xs) (proj1 Px)) as Qx.
  destruct (SignalSlices.indices (size ay) (SignalSlices.Slice a b)) as [y0 y1] eqn:Iy. destruct (SignalSlices.indices (size ax) (SignalSlices.Slice c e)) as [x0 x1] eqn:Ix.
  rewrite Qy, Qx in *. rewrite !seq_length in *. destruct (SignalSlicesProofs.indices_bounds _ _ _ _ Iy) as [I1 I2]. destruct (SignalSlicesProofs.indices_bounds _ _ _ _ Ix) as [I3 I4].
  rewrite H9. unfold SignalSlices.update_detector. rewrite (SignalSlicesProofs.good_extent (size ay) (size ax) _ _ y0 y1 x0 x1) by (assumption || lia).
  unfold Detector.crop. rewrite !Z.max_l, !Z.min_l by lia. cbv zeta. destruct (Z.leb_spec (Z.of_nat y1 - Z.of_nat y0) 0); [lia|]. destruct (Z.leb_spec (Z.of_nat x1 - Z.of_nat x0) 0); [lia|]. reflexivity.
Qed.
(** A map with one PC: after isig no single pattern outside the first row can be selected, although it could before. *)
Theorem C104_isig_then_inav_refuted cy cx ay ax ys xs s s' i j : fits_detector ay ax s -> plain ay ys -> plain ax xs -> isig ay ax ys xs s = Some s' ->
  shape (patterns s) = [size cy; size cx] -> Detector.nav_shape (Detector.d_pc (detector s)) = [1] -> 1 <= i < size cy -> j < size cx ->
  inav [cy; cx] [One (Index (Z.of_nat j)); One (Index (Z.of_nat i))] s <> None
  /\ inav [cy; cx] [One (Index (Z.of_nat j)); One (Index (Z.of_nat i))] s' = None.
Proof.
  intros F Py Px E Sh N Hi Hj. destruct (isig_nav _ _ _ _ _ _ F Py Px E) as (N' & Sh' & _). rewrite N in N'. rewrite Sh in Sh'.
  assert (P1 : position (size cy) (Z.of_nat i) = Some i) by (apply position_nat; lia).
  assert (P2 : position (size cx) (Z.of_nat j) = Some j) by (apply position_nat; lia).
  unfold inav, Selections.inav. cbn [length Nat.ltb Nat.leb Nat.sub repeat app rev combine map all_some nav_entry fst snd bind]. unfold getitem. rewrite Sh, Sh'.
  cbn [axes_positions entry_positions]. rewrite P1, P2. cbn [option_map bind new_shape filter snd map existsb shape]. split.
  - unfold update_pc. rewrite N. discriminate.
  - unfold update_pc. rewrite N'. cbn [Detector.dstack_shape]. cbn [shape_eqb]. unfold pc_getitem. rewrite N'. cbn [Detector.dstack_shape axes_positions entry_positions].
    assert (P3 : position 1 (Z.of_nat i) = None) by (apply position_out; lia). rewrite P3. reflexivity.
Qed.
(** A line scan with a PC per pattern: after isig the detector does not fit the signal; a selection of the first patterns keeps all PCs,
    and one of the last loses them. *)
Theorem C104_isig_line_scan_refuted cx ay ax ys xs s s' : fits_detector ay ax s -> plain ay ys -> plain ax xs -> isig ay ax ys xs s = Some s' ->
  shape (patterns s) = [size cx] -> pc_per_pattern s -> 2 <= size cx ->
  SignalHistory.detector_is_compatible (detector s') (shape (patterns s')) (sig s') = false
  /\ (forall b s'', (0 < b)%Z -> inav [cx] [Many (Range None (Some (Index b)) None)] s' = Some s'' ->
        length (Detector.pcs (Detector.d_pc (detector s''))) = size cx)
  /\ forall a s'', (0 < a)%Z -> inav [cx] [Many (Range (Some (Index a)) None None)] s' = Some s'' ->
        Detector.pcs (Detector.d_pc (detector s'')) = [Detector.PC 0.5 0.5 0.5].
Proof.
  intros F Py Px E Sh [N L] H2. destruct (isig_nav _ _ _ _ _ _ F Py Px E) as (N' & Sh' & _). rewrite N, Sh in N'. rewrite Sh in Sh'. cbn [Detector.dstack_shape] in N'.
  split; [|split].
  - unfold SignalHistory.detector_is_compatible, SignalHistory.same_shape. rewrite N', Sh'. destruct (list_eq_dec Nat.eq_dec [1; size cx] [1]); [discriminate|].
    destruct (list_eq_dec Nat.eq_dec [1; size cx] [size cx]); [discriminate|]. apply andb_false_r.
  - intros b s'' Hb Q. unfold inav, Selections.inav in Q. cbn [length Nat.ltb Nat.leb Nat.sub repeat app rev combine map all_some nav_entry fst snd bind range_entry from until step start_index stop_index] in Q.
    unfold range_entry in Q. cbn [from until step start_index stop_index bind] in Q. unfold getitem in Q. rewrite Sh' in Q. cbn [axes_positions entry_positions bind new_shape filter snd fst map existsb shape] in Q.
    destruct (_ || _) in Q; [discriminate|]. unfold update_pc in Q. rewrite N' in Q. replace (shape_eqb [1; size cx] [1]) with false in Q by reflexivity.
    unfold pc_getitem in Q. rewrite N' in Q. cbn [axes_positions entry_positions bind new_shape filter snd fst map Detector.nav_shape] in Q.
    assert (P : positions 1 None (Some b) None = [0]).
    { unfold positions, slice_indices. cbn [Z.ltb Z.compare]. destruct (Z.ltb_spec b 0); [lia|]. rewrite Z.min_r by lia. reflexivity. }
    rewrite P, seq_length in Q. cbn [length] in Q. unfold product in Q. cbn [fold_right] in Q. destruct (Nat.eqb_spec (1 * (size cx * 1)) 0); [lia|]. cbn [bind Detector.nav_shape] in Q.
    match type of Q with Some ?t = _ => assert (s'' = t) as -> by congruence end.
    cbn [detector Detector.with_pc Detector.d_pc Detector.pcs]. rewrite map_length, length_cross. cbn [map seq fold_right product length]. rewrite seq_length. lia.
  - intros a s'' Ha Q. unfold inav, Selections.inav in Q. cbn [length Nat.ltb Nat.leb Nat.sub repeat app rev combine map all_some nav_entry fst snd bind range_entry from until step start_index stop_index] in Q.
    unfold range_entry in Q. cbn [from until step start_index stop_index bind] in Q. unfold getitem in Q. rewrite Sh' in Q. cbn [axes_positions entry_positions bind new_shape filter snd fst map existsb shape] in Q.
    destruct (_ || _) in Q; [discriminate|]. unfold update_pc in Q. rewrite N' in Q. replace (shape_eqb [1; size cx] [1]) with false in Q by reflexivity.
    unfold pc_getitem in Q. rewrite N' in Q. cbn [axes_positions entry_positions bind new_shape filter snd fst map Detector.nav_shape] in Q.
    assert (P : positions 1 (Some a) None None = []).
    { unfold positions, slice_indices. cbn [Z.ltb Z.compare]. destruct (Z.ltb_spec a 0); [lia|]. rewrite Z.min_r by lia. reflexivity. }
    rewrite P in Q. cbn [length product fold_right Nat.mul Nat.eqb bind] in Q. injection Q as <-. reflexivity.
Qed.

(** ** crop() *)

Definition indices_only (a b : option edge) : Prop :=
  match a with Some (Value _) => False | _ => True end /\ match b with Some (Value _) => False | _ => True end.
Lemma indices_entry ax a b : indices_only a b ->
  exists i j, get_index ax a = Some i /\ get_index ax b = Some j /\ raw a b = Some (Sl i j None) /\ range_entry ax (Range a b None) = Some (Sl i j None).
Proof.
  intros [A B]. destruct a as [[i|x]|], b as [[j|y]|]; try contradiction; cbn [get_index]; repeat eexists; reflexivity.
Qed.
Lemma axes_entries : forall axes k ax e r, nth_error axes k = Some ax -> nav_entry ax r = Some e ->
  all_some (map (fun ai => nav_entry (fst ai) (snd ai)) (combine axes (repeat (Many whole) k ++ r :: repeat (Many whole) (length axes - 1 - k))))
  = Some (repeat everything k ++ e :: repeat everything (length axes - 1 - k)).
Proof.
  assert (W : forall axes n, n = length axes -> all_some (map (fun ai => nav_entry (fst ai) (snd ai)) (combine axes (repeat (Many whole) n))) = Some (repeat everything n)).
  { induction axes as [|ax axes IH]; intros n ->; [reflexivity|]. cbn [length repeat combine map all_some]. rewrite (IH _ eq_refl). reflexivity. }
  induction axes as [|a axes IH]; intros [|k] ax e r N E; try discriminate.
  - injection N as ->. cbn [repeat app length combine map all_some fst snd]. replace (S (length axes) - 1 - 0) with (length axes) by lia. rewrite E, (W axes _ eq_refl). reflexivity.
  - cbn [nth_error] in N. cbn [repeat app length combine map all_some]. replace (S (length axes) - 1 - S k) with (length axes - 1 - k) by lia. rewrite (IH k ax e r N E). reflexivity.
Qed.
Lemma update_xmap_dim es n m : length (m_shape m) <= n -> existsb is_negative es = false -> update_xmap negative_index es (Some n) m = update_xmap negative_index es None m.
Proof.
  intros H N. unfold update_xmap. rewrite N. destruct (xmap_getitem es m) as [m'|] eqn:E; [|reflexivity]. unfold xmap_getitem in E. destruct (axes_positions (m_shape m) es) as [ps|]; [|discriminate].
  cbn [bind] in E. injection E as <-. cbn [m_shape m_points]. rewrite !map_length, combine_length. destruct (Nat.ltb_spec n (Nat.min (length (m_shape m)) (length ps))); [lia|reflexivity].
Qed.
Lemma kept_shape : forall sh k e ps, axes_positions sh (repeat everything k ++ e :: repeat everything (length sh - 1 - k)) = Some ps -> k < length sh ->
  match e with Sl _ _ _ => True | At _ => False end -> new_shape ps = firstn k sh ++ length_of (nth k sh 0) e :: skipn (S k) sh.
Proof.
  assert (W : forall sh n ps, n = length sh -> axes_positions sh (repeat everything n) = Some ps -> new_shape ps = sh).
  { induction sh as [|n sh IH]; intros m ps -> E; cbn [length repeat axes_positions] in E; [injection E as <-; reflexivity|].
    cbn [entry_positions everything bind] in E. destruct (axes_positions sh (repeat everything (length sh))) as [r|] eqn:G; [|discriminate]. cbn [bind] in E. injection E as <-.
    unfold new_shape. cbn [filter snd map fst]. fold (new_shape r). rewrite (IH _ r eq_refl G), positions_whole, seq_length. reflexivity. }
  induction sh as [|n sh IH]; intros [|k] e ps E L Q; try (cbn [length] in L; lia).
  - cbn [repeat app length axes_positions] in E. replace (S (length sh) - 1 - 0) with (length sh) in E by lia. destruct e as [i|a b st]; [contradiction|]. cbn [entry_positions bind] in E.
    destruct (axes_positions sh (repeat everything (length sh))) as [r|] eqn:G; [|discriminate]. cbn [bind] in E. injection E as <-.
    unfold new_shape. cbn [filter snd map fst]. fold (new_shape r). rewrite (W _ _ r eq_refl G). reflexivity.
  - cbn [repeat app length axes_positions] in E. replace (S (length sh) - 1 - S k) with (length sh - 1 - k) in E by lia. cbn [entry_positions everything bind] in E. fold everything in E.
    destruct (axes_positions sh _) as [r|] eqn:G in E; [|discriminate]. cbn [bind] in E. injection E as <-.
    unfold new_shape. cbn [filter snd map fst]. fold (new_shape r). cbn [length] in L. rewrite (IH _ _ r G ltac:(lia) Q), positions_whole, seq_length. reflexivity.
Qed.
Lemma no_negative k a b st n : existsb is_negative (repeat everything k ++ Sl a b st :: repeat everything n) = false.
Proof.
  assert (W : forall n, existsb is_negative (repeat everything n) = false) by (induction n0; [reflexivity|exact IHn0]).
  rewrite existsb_app, W. cbn [existsb is_negative orb]. apply W.
Qed.

(** Along an axis of the map, with integers: as the selection with inav, in place; nothing happens if the shape stays. *)
Theorem C104_crop_map axes k ax a b s s' : fits axes s -> nth_error axes k = Some ax -> indices_only a b -> ~ In 0 (shape (patterns s)) ->
  (forall m, xmap s = Some m -> length (m_shape m) <= length (shape (patterns s))) -> crop ax k a b s = (s', false) ->
  (s' = s /\ shape (patterns s') = shape (patterns s))
  \/ (shape (patterns s') <> shape (patterns s) /\ inav axes (repeat (Many whole) (length axes - 1 - k) ++ [Many (Range a b None)]) s = Some s').
Proof.
  intros F K I N0 X E. assert (Lk : k < length axes) by (apply nth_error_Some; congruence). pose proof F as (Fs & _).
  assert (Ls : length (shape (patterns s)) = length axes) by (rewrite <- Fs; apply map_length).
  destruct (indices_entry ax a b I) as (i & j & G1 & G2 & G3 & G4). unfold crop, Selections.crop in E. rewrite G1, G2, G3, Ls in E. destruct (Nat.ltb_spec k (length axes)) as [_|?]; [|lia].
  set (n := nth k (shape (patterns s)) 0) in *. destruct (Nat.eqb_spec (length_of n (Sl i j None)) 0) as [?|C0]; [discriminate|].
  destruct (_ || _) eqn:C1 in E; [injection E as <-; left; split; reflexivity|]. apply orb_false_iff in C1. destruct C1 as [_ C1]. apply Nat.eqb_neq in C1. right.
  unfold getitem in E. destruct (axes_positions (shape (patterns s)) _) as [ps|] eqn:P in E; [|discriminate]. cbn [bind] in E.
  set (es := repeat everything k ++ Sl i j None :: repeat everything (length axes - 1 - k)) in *.
  assert (U : (if shape_eqb (Detector.nav_shape (Detector.d_pc (detector s))) [1] then Some (Detector.d_pc (detector s)) else update_pc es (Detector.d_pc (detector s)))
     = update_pc es (Detector.d_pc (detector s))) by (unfold update_pc; destruct (shape_eqb _ _); reflexivity).
  rewrite U in E. destruct (update_pc es _) as [pc|] eqn:Q in E; [|discriminate]. injection E as <-. cbn [patterns shape].
  pose proof (kept_shape (shape (patterns s)) k (Sl i j None) ps) as KS. rewrite Ls in KS. specialize (KS P Lk Logic.I). fold n in KS.
  assert (D : shape (patterns s) = firstn k (shape (patterns s)) ++ n :: skipn (S k) (shape (patterns s))).
  { rewrite <- (firstn_skipn k (shape (patterns s))) at 1. f_equal. unfold n. rewrite (skipn_nth 0 (shape (patterns s)) k) by lia. reflexivity. }
  split.
  - rewrite KS. intros Z. pose proof (eq_trans Z D) as Z'. apply app_inv_head in Z'. apply (f_equal (hd 0)) in Z'. contradiction.
  - unfold inav, Selections.inav. rewrite app_length, repeat_length. cbn [length]. destruct (Nat.ltb_spec (length axes) (length axes - 1 - k + 1)); [lia|].
    replace (length axes - (length axes - 1 - k + 1)) with k by lia.
    replace (rev _) with (repeat (Many whole) k ++ Many (Range a b None) :: repeat (Many whole) (length axes - 1 - k)).
    2:{ rewrite !rev_app_distr, !rev_repeat. cbn [rev app]. reflexivity. }
    rewrite (axes_entries axes k ax (Sl i j None)) by (assumption || exact G4). cbn [bind]. fold es. unfold getitem. rewrite P. cbn [bind shape].
    replace (existsb (Nat.eqb 0) (new_shape ps)) with false.
    + rewrite Q. cbn [bind]. do 2 f_equal. destruct (xmap s) as [m|] eqn:Xm; [|reflexivity]. cbn [option_map]. f_equal. apply update_xmap_dim; [|apply no_negative].
      rewrite KS, app_length. cbn [length]. rewrite firstn_length, skipn_length. specialize (X m eq_refl). lia.
    + symmetry. rewrite KS. apply not_true_is_false. intros Z. apply existsb_exists in Z. destruct Z as (z & Z & W). apply Nat.eqb_eq in W. subst z. apply in_app_or in Z. destruct Z as [Z|[Z|Z]].
      * apply N0. rewrite D. apply in_or_app. now left.
      * congruence.
      * apply N0. rewrite D. apply in_or_app. right. now right.
Qed.
(** Along the rows of the detector, with integers: as the selection with isig. *)
Theorem C104_crop_rows ay ax a b s s' : fits_detector ay ax s -> indices_only a b -> crop ay (length (shape (patterns s))) a b s = (s', false) ->
  (s' = s) \/ (sig s' <> sig s /\ isig ay ax (Range a b None) whole s = Some s').
Proof.
  intros F I E. destruct F as (Fs & Hv & Ey & Ex & _). destruct (indices_entry ay a b I) as (i & j & G1 & G2 & G3 & G4). unfold crop, Selections.crop in E. rewrite G1, G2, G3, Nat.ltb_irrefl, Nat.eqb_refl in E.
  destruct (Nat.eqb_spec (length_of (fst (sig s)) (Sl i j None)) 0) as [?|C0]; [discriminate|].
  destruct (_ || _) eqn:C1 in E; [injection E as <-; left; reflexivity|]. apply orb_false_iff in C1. destruct C1 as [_ C1]. apply Nat.eqb_neq in C1. right. injection E as <-. cbn [sig].
  split; [intros Z; apply (f_equal fst) in Z; cbn [fst] in Z; contradiction|]. unfold isig. rewrite G4. cbn [bind]. unfold range_entry at 1. cbn [whole from until step start_index stop_index bind].
  assert (W : length_of (snd (sig s)) everything = snd (sig s)) by (cbn [length_of entry_positions everything fst]; rewrite positions_whole; apply seq_length).
  fold everything. rewrite W. destruct (Nat.eqb_spec (length_of (fst (sig s)) (Sl i j None)) 0) as [?|_]; [contradiction|].
  destruct Hv as (_ & V & _). rewrite Fs in *. cbn [fst snd] in *. destruct (Nat.eqb_spec (size ax) 0); [lia|]. reflexivity.
Qed.
Theorem C104_crop_columns ay ax a b s s' : fits_detector ay ax s -> indices_only a b -> crop ax (S (length (shape (patterns s)))) a b s = (s', false) ->
  (s' = s) \/ (sig s' <> sig s /\ isig ay ax whole (Range a b None) s = Some s').
Proof.
  intros F I E. destruct F as (Fs & Hv & Ey & Ex & _). destruct (indices_entry ax a b I) as (i & j & G1 & G2 & G3 & G4). unfold crop, Selections.crop in E. rewrite G1, G2, G3 in E.
  destruct (Nat.ltb_spec (S (length (shape (patterns s)))) (length (shape (patterns s)))); [lia|]. destruct (Nat.eqb_spec (S (length (shape (patterns s)))) (length (shape (patterns s)))); [lia|].
  destruct (Nat.eqb_spec (length_of (snd (sig s)) (Sl i j None)) 0) as [?|C0]; [discriminate|].
  destruct (_ || _) eqn:C1 in E; [injection E as <-; left; reflexivity|]. apply orb_false_iff in C1. destruct C1 as [_ C1]. apply Nat.eqb_neq in C1. right. injection E as <-. cbn [sig].
  split; [intros Z; apply (f_equal snd) in Z; cbn [snd] in Z; contradiction|]. unfold isig. rewrite G4. unfold range_entry at 1. cbn [whole from until step start_index stop_index bind].
  assert (W : length_of (fst (sig s)) everything = fst (sig s)) by (cbn [length_of entry_positions everything fst]; rewrite positions_whole; apply seq_length).
  fold everything. rewrite W. destruct (Nat.eqb_spec (length_of (snd (sig s)) (Sl i j None)) 0) as [?|_]; [contradiction|].
  destruct Hv as (V & _). rewrite Fs in *. cbn [fst snd] in *. destruct (Nat.eqb_spec (size ay) 0); [lia|]. reflexivity.
Qed.

(** *** Values in the units of an axis: refuted *)

Definition has_value (a b : option edge) : Prop := exists x, a = Some (Value x) \/ b = Some (Value x).
Lemma has_value_raw a b : has_value a b -> raw a b = None.
Proof. intros [x [-> | ->]]; cbn [raw]; [reflexivity|]. destruct a as [[|]|]; reflexivity. Qed.
(** Detector rows or columns: patterns are cropped, the background is not, and the PCs are lost. *)
Theorem C104_crop_detector_values_refuted ay ax k a b s s' r : fits_detector ay ax s -> has_value a b -> length (shape (patterns s)) <= k ->
  crop (if k =? length (shape (patterns s)) then ay else ax) k a b s = (s', r) -> sig s' <> sig s ->
  r = false /\ background s' = background s /\ Detector.pcs (Detector.d_pc (detector s')) = [Detector.PC 0.5 0.5 0.5]
  /\ forall i, shape (at_ (patterns s') i) = [fst (sig s'); snd (sig s')].
Proof.
  intros F V Hk E. unfold crop, Selections.crop in E. rewrite (has_value_raw _ _ V) in E. destruct (Nat.ltb_spec k (length (shape (patterns s)))) as [?|_]; [lia|].
  destruct (get_index _ a) as [i|]; [|injection E as <- _; congruence]. destruct (get_index _ b) as [j|]; [|injection E as <- _; congruence].
  destruct (_ =? 0) in E; [injection E as <- _; congruence|]. destruct (_ || _) in E; [injection E as <- _; congruence|]. injection E as <- <-. intros _.
  cbn [background detector fresh_detector Detector.d_pc patterns at_ sig]. do 3 (split; [reflexivity|]). intros i0. destruct F as (Fs & _ & _ & _ & Fp & _).
  destruct (k =? length (shape (patterns s))); unfold cut, getitem; rewrite Fp, Fs; cbn [axes_positions entry_positions everything bind shape new_shape filter map fst snd length_of]; rewrite positions_whole, seq_length; reflexivity.
Qed.
(** When the patterns are cropped: if the values leave some of the rows or columns, but not all of them, in any case,
    whether or not an exception follows. *)
Theorem C104_crop_map_patterns ax k a b s s' r i j p : get_index ax a = Some i -> get_index ax b = Some j -> k < length (shape (patterns s)) ->
  crop ax k a b s = (s', r) -> (a <> None \/ b <> None) ->
  0 < length_of (nth k (shape (patterns s)) 0) (Sl i j None) < nth k (shape (patterns s)) 0 ->
  getitem (patterns s) (repeat everything k ++ Sl i j None :: repeat everything (length (shape (patterns s)) - 1 - k)) = Some p ->
  patterns s' = p.
Proof.
  intros G1 G2 K E NN B P. unfold crop, Selections.crop in E. rewrite G1, G2 in E. rewrite (proj2 (Nat.ltb_lt _ _) K) in E.
  destruct (Nat.eqb_spec (length_of (nth k (shape (patterns s)) 0) (Sl i j None)) 0); [lia|].
  destruct (Nat.eqb_spec (length_of (nth k (shape (patterns s)) 0) (Sl i j None)) (nth k (shape (patterns s)) 0)); [lia|].
  assert (X : (match a, b with None, None => true | _, _ => false end || false = false)%bool) by (destruct a, b; try reflexivity; destruct NN; congruence).
  rewrite X, P in E. match type of E with (match ?q with Some _ => _ | None => _ end) = _ => destruct q end; injection E as <- _; reflexivity.
Qed.
(** A map axis and a PC per pattern: an exception, after the patterns were cropped; the attributes are those of the map before. *)
Theorem C104_crop_map_values_refuted ax k a b s s' r : has_value a b -> k < length (shape (patterns s)) ->
  Detector.nav_shape (Detector.d_pc (detector s)) <> [1] -> crop ax k a b s = (s', r) -> shape (patterns s') <> shape (patterns s) ->
  r = true /\ detector s' = detector s /\ xmap s' = xmap s.
Proof.
  intros V Hk N E. unfold crop, Selections.crop in E. rewrite (has_value_raw _ _ V) in E. destruct (Nat.ltb_spec k (length (shape (patterns s)))) as [_|?]; [|lia].
  destruct (get_index _ a) as [i|]; [|injection E as <- _; congruence]. destruct (get_index _ b) as [j|]; [|injection E as <- _; congruence].
  destruct (_ =? 0) in E; [injection E as <- _; congruence|]. destruct (_ || _) in E; [injection E as <- _; congruence|].
  destruct (getitem _ _) in E; [|injection E as <- _; congruence]. destruct (shape_eqb (Detector.nav_shape (Detector.d_pc (detector s))) [1]) eqn:Q.
  - apply CoordinateConversionProofs.shape_eqb_eq in Q. contradiction.
  - cbn [bind] in E. injection E as <- <-. auto.
Qed.
(** With one PC there is no exception, but the crystal map is that of the map before. *)
Theorem C104_crop_map_values_one_pc_refuted ax k a b s s' r m : has_value a b -> k < length (shape (patterns s)) ->
  Detector.nav_shape (Detector.d_pc (detector s)) = [1] -> xmap s = Some m -> m_shape m = shape (patterns s) ->
  crop ax k a b s = (s', r) -> shape (patterns s') <> shape (patterns s) ->
  r = false /\ xmap s' = Some m /\ m_shape m <> shape (patterns s').
Proof.
  intros V Hk N X M E. unfold crop, Selections.crop in E. rewrite (has_value_raw _ _ V) in E. destruct (Nat.ltb_spec k (length (shape (patterns s)))) as [_|?]; [|lia].
  destruct (get_index _ a) as [i|]; [|injection E as <- _; congruence]. destruct (get_index _ b) as [j|]; [|injection E as <- _; congruence].
  destruct (_ =? 0) in E; [injection E as <- _; congruence|]. destruct (_ || _) in E; [injection E as <- _; congruence|].
  destruct (getitem _ _) in E; [|injection E as <- _; congruence]. rewrite N in E. cbn [shape_eqb Nat.eqb andb] in E. injection E as <- <-. cbn [xmap patterns]. intros C. split; [reflexivity|]. split; [exact X|]. congruence.
Qed.
End Maps.

(** ** How crop() and rebin() read their arguments *)

Section Arguments.
Context {V : Type}.
Variable none : V.
(** Calls that Python accepts: not too many arguments, no unknown keywords, and nothing given twice. *)
Definition accepted (ps : list (parameter (V := V))) (args : list V) (kwargs : list (string * V)) : Prop :=
  length args <= length ps /\ NoDup (map fst kwargs) /\ (forall k, In k (map fst kwargs) -> In k (skipn (length args) (map fst ps))).
(** The value that the called method sees, None if there is no default. *)
Definition seen (ps : list (parameter (V := V))) (args : list V) (kwargs : list (string * V)) (name : string) (v : V) : Prop :=
  exists i default, nth_error ps i = Some (name, default) /\
    (nth_error args i = Some v
     \/ nth_error args i = None /\ (In (name, v) kwargs \/ ~ In name (map fst kwargs) /\ v = match default with Some w => w | None => none end)).

Lemma lookup_update (k k' : string) (v : V) d : In k' (map fst d) -> lookup k (update k' v d) = if String.eqb k' k then Some v else lookup k d.
Proof.
  induction d as [|[a w] d IH]; [intros []|]. cbn [map fst update]. intros [->|H].
  - rewrite String.eqb_refl. cbn [lookup]. destruct (String.eqb_spec k' k); reflexivity.
  - destruct (String.eqb_spec a k') as [->|Q]; cbn [lookup]; [destruct (String.eqb_spec k' k); reflexivity|]. rewrite IH by exact H.
    destruct (String.eqb_spec a k) as [->|?]; [|reflexivity]. destruct (String.eqb_spec k' k); [congruence|reflexivity].
Qed.
Lemma keys_update (k : string) (v : V) d : map fst (update k v d) = map fst d.
Proof. induction d as [|[a w] d IH]; [reflexivity|]. cbn [update]. destruct (String.eqb a k); cbn [map fst]; [reflexivity|]. f_equal. exact IH. Qed.
Lemma positional_spec keys : NoDup keys -> forall (args : list V) i d, i + length args <= length keys -> incl keys (map fst d) ->
  exists d', positional i args keys d = Some d' /\ map fst d' = map fst d
    /\ (forall j k, nth_error keys (i + j) = Some k -> j < length args -> lookup k d' = nth_error args j)
    /\ (forall k, ~ In k (firstn (length args) (skipn i keys)) -> lookup k d' = lookup k d).
Proof.
  intros N. induction args as [|a args IH]; intros i d L I; cbn [positional length] in *.
  - exists d. repeat split. intros j k _ ?. lia.
  - destruct (nth_error keys i) as [k|] eqn:K; [|apply nth_error_None in K; lia]. cbn [bind].
    destruct (IH (S i) (update k a d)) as (d' & E & M & P & Q); [lia|rewrite keys_update; exact I|]. exists d'. split; [exact E|]. rewrite keys_update in M. split; [exact M|].
    assert (D : skipn i keys = k :: skipn (S i) keys) by (rewrite (skipn_nth k keys i) by lia; f_equal; apply nth_error_nth; exact K).
    assert (Kd : In k (map fst d)) by (apply I; eapply nth_error_In; exact K).
    split.
    + intros [|j] k0 H Hj.
      * rewrite Nat.add_0_r, K in H. injection H as <-. rewrite Q.
        -- rewrite lookup_update by exact Kd. rewrite String.eqb_refl. reflexivity.
        -- intros F. assert (F2 : In k (skipn (S i) keys)) by (rewrite <- (firstn_skipn (length args)); apply in_or_app; left; exact F).
           assert (N2 : NoDup (skipn i keys)). { clear -N. revert i. induction keys as [|a l IH]; intros [|i]; try exact N. apply IH. now inversion N. }
           rewrite D in N2. inversion N2. contradiction.
      * cbn [nth_error]. apply P; [|lia]. rewrite <- H. f_equal. lia.
    + intros k0 H. rewrite D in H. cbn [firstn] in H. rewrite Q by (intros F; apply H; right; exact F). rewrite lookup_update by exact Kd.
      destruct (String.eqb_spec k k0) as [->|?]; [|reflexivity]. elim H. now left.
Qed.
Lemma keywords_spec (kwargs : list (string * V)) : NoDup (map fst kwargs) -> forall d, incl (map fst kwargs) (map fst d) -> forall k,
  (forall v, In (k, v) kwargs -> lookup k (keywords kwargs d) = Some v) /\ (~ In k (map fst kwargs) -> lookup k (keywords kwargs d) = lookup k d).
Proof.
  induction kwargs as [|[a w] kwargs IH]; intros N d I k; [split; [intros v []|reflexivity]|]. cbn [map fst] in N, I. inversion N as [|? ? N1 N2]; subst. unfold keywords. cbn [fold_left fst snd].
  fold (keywords kwargs (update a w d)). destruct (IH N2 (update a w d) ltac:(rewrite keys_update; intros z Hz; apply I; now right) k) as [A B].
  assert (Ia : In a (map fst d)) by (apply I; now left). split.
  - intros v [H|H]; [|apply A; exact H]. injection H as -> ->. rewrite B by exact N1. rewrite lookup_update by exact Ia. rewrite String.eqb_refl. reflexivity.
  - cbn [map fst]. intros H. rewrite B by (intros F; apply H; now right). rewrite lookup_update by exact Ia. destruct (String.eqb_spec a k) as [->|?]; [|reflexivity]. elim H. now left.
Qed.
Lemma lookup_defaults ps i (k : string) (o : option V) : NoDup (map fst ps) -> ~ In "self"%string (map fst ps) -> nth_error ps i = Some (k, o) ->
  lookup k (defaults none ps) = Some (match o with Some v => v | None => none end).
Proof.
  revert i. unfold defaults. induction ps as [|[a w] ps IH]; intros i N S E; [destruct i; discriminate|]. cbn [map fst] in N, S. inversion N as [|? ? N1 N2]; subst. cbn [filter fst].
  destruct (String.eqb_spec a "self") as [->|?]; [elim S; now left|]. cbn [negb map fst snd lookup]. destruct i as [|i]; cbn [nth_error] in E.
  - injection E as -> ->. rewrite String.eqb_refl. reflexivity.
  - destruct (String.eqb_spec a k) as [->|?]; [elim N1; apply nth_error_In in E; apply (in_map fst) in E; exact E|]. apply (IH i); [exact N2| |exact E]. intros F. apply S. now right.
Qed.
Lemma keys_defaults (ps : list (parameter (V := V))) : ~ In "self"%string (map fst ps) -> map fst (defaults none ps) = map fst ps.
Proof.
  unfold defaults. induction ps as [|[a w] ps IH]; intros S; [reflexivity|]. cbn [map fst] in S. cbn [filter fst]. destruct (String.eqb_spec a "self") as [->|?]; [elim S; now left|].
  cbn [negb map fst]. f_equal. apply IH. intros F. apply S. now right.
Qed.
Lemma all_some_f2 {A B} (P : A -> B -> Prop) (f : A -> option B) l : (forall a, In a l -> exists b, f a = Some b /\ P a b) -> exists bs, all_some (map f l) = Some bs /\ Forall2 P l bs.
Proof.
  induction l as [|a l IH]; intros H; [exists []; split; [reflexivity|constructor]|]. destruct (H a (or_introl eq_refl)) as (b & E & Q). destruct IH as (bs & E2 & Q2); [intros; apply H; now right|].
  exists (b :: bs). cbn [map all_some]. rewrite E, E2. split; [reflexivity|constructor; assumption].
Qed.

(** For each call that Python accepts, the values found are those the called method sees. *)
Theorem C104_arguments ps interest args kwargs : NoDup (map fst ps) -> ~ In "self"%string (map fst ps) -> accepted ps args kwargs ->
  (forall k, In k interest -> In k (map fst ps)) ->
  exists vs, get_parameters none ps interest args kwargs = Some (Some vs) /\ Forall2 (seen ps args kwargs) interest vs.
Proof.
  intros N S (L & Nk & Ik) In_. unfold parameter in *. unfold get_parameters. rewrite (keys_defaults ps S).
  destruct (positional_spec (map fst ps) N args 0 (defaults none ps)) as (d & E & M & P & Q); [rewrite map_length; exact L|rewrite (keys_defaults ps S); apply incl_refl|]. rewrite E. cbn [bind].
  rewrite (keys_defaults ps S) in M. cbn [skipn] in Q.
  assert (I : incl (map fst kwargs) (map fst d)). { intros k Hk. rewrite M. apply Ik in Hk. rewrite <- (firstn_skipn (length args)). apply in_or_app. now right. }
  destruct (all_some_f2 (seen ps args kwargs) (fun k => lookup k (keywords kwargs d)) interest) as (vs & Ev & F); [|exists vs; rewrite Ev; split; [reflexivity|exact F]].
  intros k Hk. apply In_ in Hk. apply in_map_iff in Hk. destruct Hk as ([k' o] & Ek & Hk). cbn [fst] in Ek. subst k'. apply In_nth_error in Hk. destruct Hk as [i Hi].
  assert (Hi2 : nth_error (map fst ps) i = Some k) by (rewrite nth_error_map, Hi; reflexivity).
  destruct (keywords_spec kwargs Nk d I k) as [A B]. destruct (nth_error args i) as [a|] eqn:Ea.
  - assert (Li : i < length args) by (apply nth_error_Some; congruence).
    assert (K : ~ In k (map fst kwargs)).
    { intros K. apply Ik in K. assert (K1 : In k (firstn (length args) (map fst ps))). { rewrite <- (firstn_skipn (length args) (map fst ps)) in Hi2. rewrite nth_error_app1 in Hi2 by (rewrite firstn_length, map_length; lia). eapply nth_error_In. exact Hi2. }
      rewrite <- (firstn_skipn (length args) (map fst ps)) in N. clear -N K K1. induction (firstn (length args) (map fst ps)) as [|z l IH]; [exact K1|]. cbn [app] in N. inversion N as [|? ? N1 N2]; subst. destruct K1 as [->|K1]; [apply N1, in_or_app; now right|exact (IH N2 K1)]. }
    exists a. rewrite (B K). split; [rewrite (P i k Hi2 Li); exact Ea|]. exists i, o. split; [exact Hi|]. left. exact Ea.
  - assert (Li : length args <= i) by (apply nth_error_None; exact Ea). destruct (in_dec string_dec k (map fst kwargs)) as [K|K].
    + apply in_map_iff in K. destruct K as ([k' v] & Ek & K). cbn [fst] in Ek. subst k'. exists v. split; [apply A; exact K|]. exists i, o. split; [exact Hi|]. right. split; [exact Ea|]. left. exact K.
    + exists (match o with Some w => w | None => none end). split; [|exists i, o; split; [exact Hi|]; right; split; [exact Ea|]; right; split; [exact K|reflexivity]].
      rewrite (B K). rewrite Q; [apply (lookup_defaults ps i); assumption|]. intros F. apply In_nth_error in F. destruct F as [j F].
      assert (Lj : j < length args). { assert (Q2 : j < length (firstn (length args) (map fst ps))) by (apply nth_error_Some; congruence). rewrite firstn_length in Q2. lia. }
      assert (F2 : nth_error (map fst ps) j = Some k). { rewrite <- (firstn_skipn (length args) (map fst ps)). rewrite nth_error_app1 by (rewrite firstn_length, map_length; lia). exact F. }
      assert (i = j); [|lia]. apply (proj1 (NoDup_nth_error (map fst ps)) N); [apply nth_error_Some; congruence|congruence].
Qed.
(** A parameter that the method does not have: no values are found, and crop() leaves the attributes alone. *)
Theorem C104_arguments_missing ps interest args kwargs k : NoDup (map fst ps) -> ~ In "self"%string (map fst ps) -> accepted ps args kwargs ->
  In k interest -> ~ In k (map fst ps) -> get_parameters none ps interest args kwargs = Some None.
Proof.
  intros N S (L & Nk & Ik) Hk Hn. unfold get_parameters. rewrite (keys_defaults ps S).
  destruct (positional_spec (map fst ps) N args 0 (defaults none ps)) as (d & E & M & _); [rewrite map_length; exact L|rewrite (keys_defaults ps S); apply incl_refl|]. rewrite E. cbn [bind].
  rewrite (keys_defaults ps S) in M. f_equal.
  assert (Kd : lookup k (keywords kwargs d) = None).
  { assert (W : forall l d, map fst (keywords l d) = map fst (d : list (string * V))) by (unfold keywords; induction l as [|x l IH]; intros d0; [reflexivity|]; cbn [fold_left]; rewrite IH; apply keys_update).
    specialize (W kwargs d). rewrite M in W. rewrite <- W in Hn. clear -Hn. induction (keywords kwargs d) as [|[a w] l IH]; [reflexivity|]. cbn [map fst lookup] in *. destruct (String.eqb_spec a k); [elim Hn; now left|]. apply IH. intros F. apply Hn. now right. }
  clear -Hk Kd. induction interest as [|z l IH]; [destruct Hk|]. cbn [map all_some]. destruct Hk as [->|Hk]; [rewrite Kd; reflexivity|]. rewrite (IH Hk). destruct (lookup z _); reflexivity.
Qed.
End Arguments.

(** ** Examples *)

Module Examples.
Definition axis_of (n : nat) : axis := Axis n 0 (INR n) (fun _ => Some 1%Z).
Definition pc_of (n : nat) : Detector.pc3 := Detector.PC (INR n / 100) 0.5 0.5.
Definition det : Detector.detector := Detector.Det 6 5 70 1 0 0 0 70 (Detector.PCArray [3; 4] (map pc_of (seq 0 12))).
Definition pattern (n : nat) : arr R := Arr [6; 5] (fun i => INR (n + nth 0 i 0 * 5 + nth 1 i 0)).
Definition s : signal := Signal (Arr [3; 4] (fun i => pattern (nth 0 i 0 * 4 + nth 1 i 0))) (6, 5) det (Some (pattern 7)) (Some (CMap [3; 4] (seq 0 12))).
Definition one : signal := Signal (patterns s) (6, 5) (Detector.with_pc det (Detector.PCArray [1] [pc_of 0])) (background s) (xmap s).
Definition line : signal := Signal (Arr [4] (fun i => pattern (nth 0 i 0))) (6, 5) (Detector.with_pc det (Detector.PCArray [4] (map pc_of (seq 0 4)))) None None.
Definition neg : list entry -> cmap -> cmap := fun _ m => m.

Example s_fits : fits [axis_of 3; axis_of 4] s /\ fits_detector (axis_of 6) (axis_of 5) s /\ pc_per_pattern s /\ full (CMap [3; 4] (seq 0 12)) (shape (patterns s)).
Proof.
  split; [|split; [|split]].
  - split; [reflexivity|]. split; [reflexivity|]. intros b E. injection E as <-. reflexivity.
  - split; [reflexivity|]. split; [unfold DetectorProofs.valid; cbn; repeat split; lia || lra|]. split; [reflexivity|]. split; [reflexivity|]. split; [reflexivity|]. intros b E. injection E as <-. reflexivity.
  - split; reflexivity.
  - split; reflexivity.
Qed.
Example one_fits : fits_detector (axis_of 6) (axis_of 5) one /\ fits_detector (axis_of 6) (axis_of 5) line /\ pc_per_pattern line.
Proof.
  split; [|split].
  - destruct s_fits as (_ & (A & B & C) & _). split; [reflexivity|]. split; [exact B|]. exact C.
  - destruct s_fits as (_ & (A & B & C & D & _) & _). split; [reflexivity|]. split; [exact B|]. split; [reflexivity|]. split; [reflexivity|]. split; [reflexivity|]. intros b E. discriminate.
  - split; reflexivity.
Qed.
(** Column 2, rows 0 and 2; rows in reverse; rows from a value on. *)
Example inav_some : exists s1 s2 s3 s4, inav neg [axis_of 3; axis_of 4] [One (Index 2); Many (Range None None (Some 2%Z))] s = Some s1 /\ shape (patterns s1) = [2]
  /\ inav neg [axis_of 3; axis_of 4] [Many whole; Many (Range None None (Some (-1)%Z))] s = Some s2
  /\ inav neg [axis_of 3; axis_of 4] [Many (Range (Some (Value 2)) None None)] s = Some s3 /\ shape (patterns s3) = [3; 3]
  /\ inav neg [axis_of 3; axis_of 4] [Many whole; Many (Range None None (Some 2%Z))] s = Some s4 /\ hd 0 (shape (patterns s4)) = 2.
Proof. do 4 eexists. split; [reflexivity|]. split; [reflexivity|]. split; [reflexivity|]. split; [reflexivity|]. split; [reflexivity|]. split; [reflexivity|]. reflexivity. Qed.
Example isig_some : exists s1 s2 s3 s4, isig (axis_of 6) (axis_of 5) (Range (Some (Value 3)) (Some (Index 4)) None) whole s = Some s1 /\ sig s1 = (3, 5)
  /\ isig (axis_of 6) (axis_of 5) (Range None None (Some 2%Z)) whole s = Some s2 /\ sig s2 = (3, 5)
  /\ isig (axis_of 6) (axis_of 5) (Range (Some (Index 1)) (Some (Index 5)) (Some 2%Z)) whole s = Some s3 /\ sig s3 = (2, 5)
  /\ isig (axis_of 6) (axis_of 5) (Range None None (Some (-1)%Z)) whole s = Some s4.
Proof. do 4 eexists. split; [reflexivity|]. split; [reflexivity|]. split; [reflexivity|]. split; [reflexivity|]. split; [reflexivity|]. split; [reflexivity|]. reflexivity. Qed.
Example plain_some : plain (axis_of 6) (Range (Some (Value 3)) (Some (Index 4)) None) /\ plain (axis_of 5) whole.
Proof. split; (split; [reflexivity|]); cbn; [exists 1%Z; repeat split; lia|exact I]. Qed.
Example history_some : exists s1 s2, isig (axis_of 6) (axis_of 5) (Range (Some (Value 3)) (Some (Index 4)) None) whole one = Some s1
  /\ isig (axis_of 6) (axis_of 5) (Range (Some (Value 3)) (Some (Index 4)) None) whole line = Some s2.
Proof. do 2 eexists. split; reflexivity. Qed.
Example crop_some : exists s1 s2, crop neg (axis_of 3) 0 (Some (Index 1)) None s = (s1, false) /\ shape (patterns s1) = [2; 4]
  /\ crop neg (axis_of 6) 2 (Some (Index 1)) (Some (Index 4)) s = (s2, false) /\ sig s2 = (3, 5).
Proof. do 2 eexists. repeat split. Qed.
Example crop_values : exists s1 s2 s3, crop neg (axis_of 6) 2 (Some (Value 2)) None s = (s1, false) /\ sig s1 = (5, 5)
  /\ crop neg (axis_of 3) 0 (Some (Value 2)) None s = (s2, true) /\ shape (patterns s2) = [2; 4]
  /\ crop neg (axis_of 3) 0 (Some (Value 2)) None one = (s3, false) /\ shape (patterns s3) = [2; 4].
Proof. do 3 eexists. repeat split. Qed.
Example crop_patterns : exists p, get_index (axis_of 3) (Some (Value 2)) = Some (Some 1%Z) /\ get_index (axis_of 3) None = Some None
  /\ length_of 3 (Sl (Some 1%Z) None None) = 2 /\ getitem (patterns s) [Sl (Some 1%Z) None None; everything] = Some p.
Proof. eexists. repeat split. Qed.
(** The parameters of crop() *)
Example crop_parameters : accepted [("axis", None); ("start", Some 0); ("end", Some 0); ("convert_units", Some 9)]%string [5; 2] [("end", 3)]%string
  /\ get_parameters 0 [("axis", None); ("start", Some 0); ("end", Some 0); ("convert_units", Some 9)]%string ["start"; "end"]%string [5; 2] [("end", 3)]%string = Some (Some [2; 3]).
Proof.
  split; [|reflexivity]. split; [cbn; lia|]. split; [repeat constructor; intros []|]. intros k [<-|[]]. now left.
Qed.
End Examples.

Print Assumptions C104_inav.
Print Assumptions C104_isig_detector_partial.
Print Assumptions C104_crop_map.
Print Assumptions C104_arguments.
