(** Windows as objects: property C102.  See Spec/WindowObjectSpec.v. *)
From Coq Require Import String List Reals Arith Bool ZArith Lia Lra Sorting.Permutation.
From Verif Require Import Model.Window Model.WindowObject Spec.WindowObjectSpec Proofs.WindowProofs Proofs.WindowObjectProofs.
Import ListNotations.
Local Open Scope R_scope.

(** States that can be reached. *)
Definition after taper (os : list op) (s : state) : Prop := run taper empty os = Some s.
Lemma wf_empty : wf empty.
Proof. constructor. Qed.
Lemma linked_empty : linked [] empty.
Proof. split; [reflexivity|]. split; intros [|i]; intros; discriminate. Qed.
Lemma after_wf taper os s : right_length taper -> after taper os s -> wf s.
Proof. intros L H. exact (run_wf taper os empty s L wf_empty H). Qed.

(** ** Which arrays change *)

(** Whatever is done, an array keeps its elements, its name and whether it is called circular, unless elements are assigned to, or make_circular
    is called on, an array which shows the elements of the same array. *)
Theorem C102_only_relatives_change taper before later s s' j a : right_length taper ->
  after taper before s -> run taper s later = Some s' -> nth_error (arrays s) j = Some a ->
  (forall o k, In o later -> changes o = Some k -> nth k (owners (before ++ later)) 0%nat <> nth j (owners (before ++ later)) 0%nat) ->
  nth_error (arrays s') j = Some a /\ values (blocks s') a = values (blocks s) a.
Proof.
  intros L H R Ha N. apply (run_other taper later (owners before)); auto.
  - now apply (after_wf taper before).
  - exact (run_linked taper before [] empty s linked_empty H).
  - intros o k I C. unfold owners in N |- *. specialize (N o k I C). now rewrite fold_left_app in N.
Qed.

(** Elements of a window after make_circular; its name and flag. *)
Lemma make_circular_values s k s' a ny nx : wf s -> make_circular s k = Some s' -> nth_error (arrays s) k = Some a -> dims a = [ny; nx] ->
  nth_error (arrays s') k = Some (Arr (memory a) (places a) [ny; nx] true (circular_name (label a)) true) /\
  forall b i p, memory b = memory a -> nth_error (places a) i = Some p ->
    (far ny nx (i / nx) (i mod nx) = true -> cell (blocks s') (memory b) p = 0) /\
    (far ny nx (i / nx) (i mod nx) = false -> cell (blocks s') (memory b) p = cell (blocks s) (memory b) p).
Proof.
  intros W H E D. unfold make_circular in H. rewrite E, D in H. destruct (negb (is_window a)); [discriminate|].
  destruct ((ny =? 1) && negb (nx =? 1))%nat; [discriminate|]. injection H as <-. cbn [blocks arrays]. pose proof (wf_nth _ _ _ W E) as (K1 & K2 & K3 & K4). split.
  - rewrite nth_error_put, Nat.eqb_refl. replace (k <? length (arrays s))%nat with true by (symmetry; apply Nat.ltb_lt; now apply nth_error_lt in E). reflexivity.
  - intros b i p M P.
    assert (F : Forall (fun p => (p < length (nth (memory a) (blocks s) []))%nat) (corners ny nx (places a))).
    { apply Forall_forall. intros q Hq. apply corners_in in Hq. now apply (proj1 (Forall_forall _ _) K3). }
    rewrite !cell_writes by assumption. rewrite M, Nat.eqb_refl. cbn [andb]. rewrite (corners_iff ny nx (places a) i p K2 P). split; intros ->; reflexivity.
Qed.
Lemma row_major nx y x : (x < nx)%nat -> ((y * nx + x) / nx = y)%nat /\ ((y * nx + x) mod nx = x)%nat.
Proof.
  intros H. split; symmetry; [apply (Nat.div_unique _ nx y x); lia|apply (Nat.mod_unique _ nx y x); lia].
Qed.
Lemma element_values bs a nx y x : element (values bs a) nx y x = option_map (cell bs (memory a)) (nth_error (places a) (y * nx + x)).
Proof. unfold element. rewrite values_cell, nth_error_map. reflexivity. Qed.

(** make_circular sets the elements beyond the larger half width to zero and keeps the others. *)
Theorem C102_make_circular taper os s k s' a ny nx : right_length taper -> after taper os s -> step taper s (MakeCircular k) = Some s' ->
  nth_error (arrays s) k = Some a -> dims a = [ny; nx] ->
  exists a', nth_error (arrays s') k = Some a' /\ dims a' = [ny; nx] /\ flag a' = true /\
    label a' = (if (match label a with Some n => String.eqb n "rectangular" || String.eqb n "boxcar" | None => false end)%bool then Some "circular"%string else label a) /\
    forall y x, (y < ny)%nat -> (x < nx)%nat ->
      exists v, element (values (blocks s) a) nx y x = Some v /\
        (beyond ny nx y x -> element (values (blocks s') a') nx y x = Some 0) /\ (~ beyond ny nx y x -> element (values (blocks s') a') nx y x = Some v).
Proof.
  intros L H E Ha D. pose proof (after_wf _ _ _ L H) as W. cbn [step] in E. destruct (make_circular_values s k s' a ny nx W E Ha D) as [A V].
  eexists. split; [exact A|]. split; [reflexivity|]. split; [reflexivity|]. split; [cbn [label]; unfold circular_name; now destruct (label a)|].
  intros y x Hy Hx. rewrite !element_values. cbn [memory places].
  pose proof (wf_nth _ _ _ W Ha) as (_ & _ & _ & K4). rewrite D in K4. cbn in K4.
  destruct (nth_error (places a) (y * nx + x)) as [p|] eqn:P; [|apply nth_error_None in P; nia].
  destruct (row_major nx y x Hx) as [R1 R2]. destruct (V a _ p eq_refl P) as [V1 V2]. rewrite R1, R2 in V1, V2.
  eexists. split; [reflexivity|]. cbn [option_map]. split; intros Q.
  - rewrite V1; [reflexivity|]. now apply far_beyond.
  - rewrite V2; [reflexivity|]. apply not_true_is_false. intros T. now apply far_beyond in T.
Qed.

(** A window of an array is not a copy of it: making the window circular changes the array. *)
Theorem C102_window_of_array_changes_it_refuted taper os s k a s' sh nx' ny nx : right_length taper -> after taper os s ->
  nth_error (arrays s) k = Some a -> dims a = [ny; nx] ->
  run taper s [WindowOf k sh nx'; MakeCircular (length (arrays s))] = Some s' ->
  exists a', nth_error (arrays s') k = Some a' /\ forall y x, (y < ny)%nat -> (x < nx)%nat -> beyond ny nx y x -> element (values (blocks s') a') nx y x = Some 0.
Proof.
  intros L H Ha D R. pose proof (after_wf _ _ _ L H) as W. cbn [run step] in R. unfold window_of in R. destruct (shape_of sh nx') as [ds|]; [|discriminate]. rewrite Ha in R.
  set (s1 := add s _) in R. destruct (make_circular s1 (length (arrays s))) as [s2|] eqn:M; [|discriminate]. injection R as <-.
  assert (W1 : wf s1) by (apply wf_add; [exact W|exact (wf_nth _ _ _ W Ha)]).
  assert (E1 : nth_error (arrays s1) (length (arrays s)) = Some (Arr (memory a) (places a) (dims a) true (Some "custom"%string) false)).
  { unfold s1, add. cbn [arrays]. now rewrite nth_error_app2, Nat.sub_diag by lia. }
  destruct (make_circular_values s1 _ s2 _ ny nx W1 M E1 D) as [_ V]. exists a. split.
  - unfold make_circular in M. rewrite E1 in M. cbn [is_window negb dims memory places] in M. rewrite D in M.
    destruct ((ny =? 1) && negb (nx =? 1))%nat; [discriminate|]. injection M as <-. cbn [arrays]. rewrite nth_error_put.
    pose proof (nth_error_lt _ _ _ Ha). destruct (Nat.eqb_spec k (length (arrays s))); [lia|]. cbn [andb s1 add arrays]. now rewrite nth_error_app1.
  - intros y x Hy Hx B. rewrite element_values. pose proof (wf_nth _ _ _ W Ha) as (_ & _ & _ & K4). rewrite D in K4. cbn in K4.
    destruct (nth_error (places a) (y * nx + x)) as [p|] eqn:P; [|apply nth_error_None in P; nia].
    destruct (row_major nx y x Hx) as [R1 R2]. destruct (V a _ p eq_refl P) as [V1 _]. rewrite R1, R2 in V1. cbn [option_map]. rewrite V1; [reflexivity|]. now apply far_beyond.
Qed.

(** ** New windows *)

(** A window of a name has the shape asked for, by default (3, 3), its coefficients are those of one axis or products of those of two, and the
    name is the one asked for. *)
Theorem C102_new_window_one_axis taper s s' name sh nx n : step taper s (NewWindow (Some name) sh nx) = Some s' -> name <> "circular"%string ->
  (nx = Some n \/ nx = None /\ sh = Some [Z.of_nat n]) ->
  exists l a, taper name n = Some l /\ nth_error (arrays s') (length (arrays s)) = Some a /\ dims a = [n] /\ label a = Some name /\ flag a = false /\ values (blocks s') a = l.
Proof.
  intros H N S. cbn [step] in H. unfold new_window in H.
  assert (E : shape_of sh nx = Some [n] \/ shape_of sh nx = None).
  { destruct S as [-> | [-> ->]]; [now left|]. cbn [shape_of]. destruct (existsb _ _); [now right|]. left. cbn [map]. now rewrite Nat2Z.id. }
  destruct E as [E|E]; rewrite E in H; [|discriminate]. destruct (String.eqb_spec name "circular"); [contradiction|].
  cbn [tapered] in H. destruct (taper name n) as [l|] eqn:T; [|discriminate]. cbn [option_map] in H. injection H as <-.
  exists l. eexists. split; [reflexivity|]. split; [cbn [fresh arrays]; rewrite nth_error_app2, Nat.sub_diag by lia; reflexivity|]. repeat split. apply fresh_values.
Qed.
Lemma outer_element a b y x : element (outer a b) (length b) y x =
  match nth_error a y, nth_error b x with Some u, Some v => Some (u * v) | _, _ => None end \/ (length b <= x)%nat.
Proof.
  destruct (Nat.lt_ge_cases x (length b)) as [H|H]; [left|now right]. unfold element, outer. revert y. induction a as [|u a IH]; intros y.
  - cbn [flat_map]. rewrite (proj2 (nth_error_None [] (y * length b + x))) by (cbn; lia). now destruct y.
  - cbn [flat_map]. destruct y as [|y].
    + cbn [Nat.mul Nat.add nth_error]. rewrite nth_error_app1 by now rewrite map_length. rewrite nth_error_map. now destruct (nth_error b x).
    + rewrite nth_error_app2 by (rewrite map_length; lia). rewrite map_length. replace (S y * length b + x - length b)%nat with (y * length b + x)%nat by lia. apply IH.
Qed.
Theorem C102_new_window_two_axes taper s s' name sh ny nx : right_length taper -> step taper s (NewWindow (Some name) sh None) = Some s' -> name <> "circular"%string ->
  (sh = Some [Z.of_nat ny; Z.of_nat nx] \/ sh = None /\ ny = 3%nat /\ nx = 3%nat) ->
  exists ly lx a, taper name ny = Some ly /\ taper name nx = Some lx /\ nth_error (arrays s') (length (arrays s)) = Some a /\ dims a = [ny; nx] /\ label a = Some name /\ flag a = false /\
    forall y x u v, nth_error ly y = Some u -> nth_error lx x = Some v -> element (values (blocks s') a) nx y x = Some (u * v).
Proof.
  intros L H N S. cbn [step] in H. unfold new_window in H.
  assert (E : shape_of sh None = Some [ny; nx] \/ shape_of sh None = None).
  { destruct S as [-> | (-> & -> & ->)]; [|now left]. cbn [shape_of]. destruct (existsb _ _); [now right|]. left. cbn [map]. now rewrite !Nat2Z.id. }
  destruct E as [E|E]; rewrite E in H; [|discriminate]. destruct (String.eqb_spec name "circular"); [contradiction|].
  cbn [tapered] in H. destruct (taper name ny) as [ly|] eqn:Ty; [|discriminate]. destruct (taper name nx) as [lx|] eqn:Tx; [|discriminate]. injection H as <-.
  exists ly, lx. eexists. split; [reflexivity|]. split; [reflexivity|]. split; [cbn [fresh arrays]; rewrite nth_error_app2, Nat.sub_diag by lia; reflexivity|].
  split; [reflexivity|]. split; [reflexivity|]. split; [reflexivity|]. intros y x u v Hy Hx. rewrite fresh_values. apply L in Tx. rewrite <- Tx.
  destruct (outer_element ly lx y x) as [Q|Q]; [now rewrite Q, Hy, Hx|]. apply nth_error_lt in Hx. lia.
Qed.
(** The circular one is the rectangular one made circular, named so. *)
Theorem C102_new_circular_window taper os s s' name sh ny nx : right_length taper -> after taper os s -> step taper s (NewWindow name sh None) = Some s' ->
  (name = None \/ name = Some "circular"%string) -> (sh = Some [Z.of_nat ny; Z.of_nat nx] \/ sh = None /\ ny = 3%nat /\ nx = 3%nat) ->
  exists ly lx a, taper "rectangular"%string ny = Some ly /\ taper "rectangular"%string nx = Some lx /\ nth_error (arrays s') (length (arrays s)) = Some a /\
    dims a = [ny; nx] /\ label a = Some "circular"%string /\ flag a = true /\
    forall y x u v, nth_error ly y = Some u -> nth_error lx x = Some v ->
      (beyond ny nx y x -> element (values (blocks s') a) nx y x = Some 0) /\ (~ beyond ny nx y x -> element (values (blocks s') a) nx y x = Some (u * v)).
Proof.
  intros L Af H N S. pose proof (after_wf _ _ _ L Af) as W. cbn [step] in H. unfold new_window in H.
  assert (E : shape_of sh None = Some [ny; nx] \/ shape_of sh None = None).
  { destruct S as [-> | (-> & -> & ->)]; [|now left]. cbn [shape_of]. destruct (existsb _ _); [now right|]. left. cbn [map]. now rewrite !Nat2Z.id. }
  destruct E as [E|E]; rewrite E in H; [|discriminate].
  assert (Q : match name with Some n => n | None => "circular"%string end = "circular"%string) by (destruct N as [-> | ->]; reflexivity). rewrite Q in H.
  change (String.eqb "circular" "circular") with true in H. cbn [tapered] in H.
  destruct (taper "rectangular"%string ny) as [ly|] eqn:Ty; [|discriminate]. destruct (taper "rectangular"%string nx) as [lx|] eqn:Tx; [|discriminate].
  set (s1 := fresh s (outer ly lx) [ny; nx] true (Some "rectangular"%string) false) in H.
  pose proof (L _ _ _ Ty) as Ly. pose proof (L _ _ _ Tx) as Lx.
  assert (W1 : wf s1) by (apply wf_fresh; [exact W|rewrite outer_length, Ly, Lx; cbn; lia]).
  assert (E1 : nth_error (arrays s1) (length (arrays s)) = Some (Arr (length (blocks s)) (seq 0 (length (outer ly lx))) [ny; nx] true (Some "rectangular"%string) false)).
  { unfold s1, fresh. cbn [arrays]. now rewrite nth_error_app2, Nat.sub_diag by lia. }
  destruct (make_circular_values s1 _ s' _ ny nx W1 H E1 eq_refl) as [A V].
  exists ly, lx. eexists. split; [reflexivity|]. split; [reflexivity|]. split; [exact A|]. split; [reflexivity|]. split; [reflexivity|]. split; [reflexivity|].
  intros y x u v Hy Hx. rewrite element_values. cbn [memory places].
  pose proof (nth_error_lt _ _ _ Hy) as By. pose proof (nth_error_lt _ _ _ Hx) as Bx.
  destruct (outer_element ly lx y x) as [O|O]; [|lia]. rewrite Hy, Hx in O.
  pose proof (fresh_values s (outer ly lx) [ny; nx] true (Some "rectangular"%string) false) as FV. fold s1 in FV.
  rewrite <- FV in O. rewrite element_values in O. cbn [memory places] in O. rewrite Lx in O.
  destruct (nth_error (seq 0 (length (outer ly lx))) (y * nx + x)) as [p|] eqn:P; [|discriminate O]. cbn [option_map] in O.
  destruct (row_major nx y x ltac:(lia)) as [R1 R2]. destruct (V (Arr (length (blocks s)) (seq 0 (length (outer ly lx))) [ny; nx] true (Some "rectangular"%string) false) _ p eq_refl P) as [V1 V2].
  rewrite R1, R2 in V1, V2. cbn [memory] in V1, V2. cbn [option_map]. split; intros B.
  - rewrite V1; [reflexivity|]. now apply far_beyond.
  - rewrite V2; [exact O|]. apply not_true_is_false. intros T. now apply far_beyond in T.
Qed.
(** With one axis the circular window is called rectangular, and is not circular. *)
Theorem C102_circular_with_one_axis_refuted taper s n l : taper "rectangular"%string n = Some l ->
  exists s' a, step taper s (NewWindow (Some "circular"%string) None (Some n)) = Some s' /\
    nth_error (arrays s') (length (arrays s)) = Some a /\ dims a = [n] /\ label a = Some "rectangular"%string /\ flag a = false /\ values (blocks s') a = l.
Proof.
  intros T. set (s1 := fresh s l [n] true (Some "rectangular"%string) false).
  assert (E1 : nth_error (arrays s1) (length (arrays s)) = Some (Arr (length (blocks s)) (seq 0 (length l)) [n] true (Some "rectangular"%string) false)).
  { unfold s1, fresh. cbn [arrays]. now rewrite nth_error_app2, Nat.sub_diag by lia. }
  exists s1. eexists. split; [|split; [exact E1|]].
  - cbn [step]. unfold new_window. cbn [shape_of]. change (String.eqb "circular" "circular") with true. cbn [tapered]. rewrite T. cbn [option_map]. fold s1.
    unfold make_circular. rewrite E1. reflexivity.
  - repeat split. apply fresh_values.
Qed.
(** Three axes or more are not refused: the window has the first one only. *)
Theorem C102_three_axes_refuted taper s name n m q sh l : (1 <= n)%nat -> (1 <= m)%nat -> (1 <= q)%nat -> Forall (fun i => (1 <= i)%Z) sh -> name <> "circular"%string -> taper name n = Some l ->
  exists s' a, step taper s (NewWindow (Some name) (Some (Z.of_nat n :: Z.of_nat m :: Z.of_nat q :: sh)) None) = Some s' /\
    nth_error (arrays s') (length (arrays s)) = Some a /\ dims a = [n] /\ values (blocks s') a = l.
Proof.
  intros Hn Hm Hq F N T. exists (fresh s l [n] true (Some name) false). eexists.
  split; [|split; [cbn [fresh arrays]; rewrite nth_error_app2, Nat.sub_diag by lia; reflexivity|split; [reflexivity|apply fresh_values]]].
  cbn [step]. unfold new_window. cbn [shape_of].
  replace (existsb _ _) with false.
  - destruct (String.eqb_spec name "circular"); [contradiction|]. cbn [map tapered]. rewrite Nat2Z.id, T. reflexivity.
  - symmetry. apply not_true_is_false. intros E. apply existsb_exists in E. destruct E as (i & I & Q). apply Z.ltb_lt in Q.
    destruct I as [<-|[<-|[<-|I]]]; try lia. apply (proj1 (Forall_forall _ _) F) in I. lia.
Qed.
(** Sizes smaller than one are refused, also for a window of an array, where the shape is documented as not used. *)
Theorem C102_small_shapes_refused taper s name sh i : In i sh -> (i < 1)%Z -> step taper s (NewWindow name (Some sh) None) = None.
Proof.
  intros I H. cbn [step]. unfold new_window. cbn [shape_of]. replace (existsb _ sh) with true; [now destruct name|]. symmetry. apply existsb_exists. exists i. split; [exact I|]. now apply Z.ltb_lt.
Qed.
Theorem C102_shape_of_custom_window_refuted taper s k sh i : In i sh -> (i < 1)%Z -> step taper s (WindowOf k (Some sh) None) = None.
Proof.
  intros I H. cbn [step]. unfold window_of. cbn [shape_of]. replace (existsb _ sh) with true; [reflexivity|]. symmetry. apply existsb_exists. exists i. split; [exact I|]. now apply Z.ltb_lt.
Qed.

(** A window of an array has the shape and the elements of the array and the name custom; that of a circular window is no longer called circular. *)
Theorem C102_window_of_array taper s k sh nx s' a : nth_error (arrays s) k = Some a -> step taper s (WindowOf k sh nx) = Some s' ->
  exists w, nth_error (arrays s') (length (arrays s)) = Some w /\ dims w = dims a /\ values (blocks s') w = values (blocks s) a /\ label w = Some "custom"%string /\ flag w = false.
Proof.
  intros E H. cbn [step] in H. unfold window_of in H. destruct (shape_of sh nx); [|discriminate]. rewrite E in H. injection H as <-.
  eexists. split; [cbn [add arrays]; rewrite nth_error_app2, Nat.sub_diag by lia; reflexivity|]. repeat split.
Qed.
(** Copies, slices, reshaped windows and products are windows with the same name. *)
Theorem C102_derived_windows taper os s o k s' a : right_length taper -> after taper os s -> nth_error (arrays s) k = Some a -> step taper s o = Some s' ->
  (o = Copy k \/ (exists c, o = Times k c) \/ (exists i j, o = Rows k i j) \/ (exists ds, o = Reshape k ds)) ->
  exists w, nth_error (arrays s') (length (arrays s)) = Some w /\ is_window w = is_window a /\ label w = label a /\ flag w = flag a /\
    (o = Copy k -> dims w = dims a /\ values (blocks s') w = values (blocks s) a) /\
    (forall c, o = Times k c -> dims w = dims a /\ values (blocks s') w = map (Rmult c) (values (blocks s) a)) /\
    (forall ds, o = Reshape k ds -> dims w = ds /\ values (blocks s') w = values (blocks s) a) /\
    (forall i j n ds, o = Rows k i j -> dims a = n :: ds -> (i <= j <= n)%nat ->
       dims w = (j - i)%nat :: ds /\ (forall y x, (y < j - i)%nat -> (x < size ds)%nat -> element (values (blocks s') w) (size ds) y x = element (values (blocks s) a) (size ds) (i + y) x)).
Proof.
  intros L Af E H. pose proof (after_wf _ _ _ L Af) as W. revert H. intros H [-> | [[c ->] | [(i & j & ->) | [ds ->]]]]; cbn [step] in H; rewrite E in H.
  - injection H as <-. eexists. split; [cbn [fresh arrays]; rewrite nth_error_app2, Nat.sub_diag by lia; reflexivity|]. do 3 (split; [reflexivity|]).
    split; [intros _; split; [reflexivity|apply fresh_values]|]. repeat split; intros; discriminate.
  - injection H as <-. eexists. split; [cbn [fresh arrays]; rewrite nth_error_app2, Nat.sub_diag by lia; reflexivity|]. do 3 (split; [reflexivity|]).
    split; [intros; discriminate|]. split; [intros c' Q; injection Q as <-; split; [reflexivity|apply fresh_values]|]. repeat split; intros; discriminate.
  - destruct (dims a) as [|n0 ds0] eqn:D; [discriminate|]. injection H as <-. eexists. split; [cbn [add arrays]; rewrite nth_error_app2, Nat.sub_diag by lia; reflexivity|].
    do 3 (split; [reflexivity|]). do 3 (split; [intros; discriminate|]). intros i' j' n ds Q Q2 B. injection Q as <- <-. injection Q2 as <- <-.
    rewrite Nat.min_l by lia. split; [reflexivity|]. intros y x Hy Hx. rewrite !element_values. cbn [memory places]. f_equal.
    pose proof (wf_nth _ _ _ W E) as (_ & _ & _ & K4). rewrite D in K4. change (size (n0 :: ds0)) with (n0 * size ds0)%nat in K4.
    rewrite nth_error_skipn. rewrite nth_error_firstn. replace (i * size ds0 + (y * size ds0 + x) <? j * size ds0)%nat with true by (symmetry; apply Nat.ltb_lt; nia).
    f_equal. nia.
  - destruct (Nat.eqb_spec (size ds) (size (dims a))) as [Q|]; [|discriminate]. injection H as <-. eexists. split; [cbn [add arrays]; rewrite nth_error_app2, Nat.sub_diag by lia; reflexivity|].
    do 3 (split; [reflexivity|]). do 2 (split; [intros; discriminate|]). split; [intros ds' Q'; injection Q' as <-; split; reflexivity|]. intros; discriminate.
Qed.

(** ** Windows called circular *)

(** As long as no window is sliced, reshaped or assigned to, a window that says it is circular has zeros beyond the larger half width, through any
    history of copies, products, windows of windows and calls of make_circular. *)
Definition whole (o : op) : Prop := match o with Rows _ _ _ | Reshape _ _ | Assign _ _ _ => False | _ => True end.
Definition discs (s : state) : Prop := forall k a, nth_error (arrays s) k = Some a -> flag a = true ->
  exists ny nx, dims a = [ny; nx] /\ forall i p, nth_error (places a) i = Some p -> far ny nx (i / nx) (i mod nx) = true -> cell (blocks s) (memory a) p = 0.
Lemma discs_fresh s vs ds w n f : wf s -> discs s -> (f = true -> exists ny nx, ds = [ny; nx] /\ forall i v, nth_error vs i = Some v -> far ny nx (i / nx) (i mod nx) = true -> v = 0) ->
  discs (fresh s vs ds w n f).
Proof.
  intros W D Q k a E F. cbn [fresh arrays blocks] in E |- *. rewrite nth_error_snoc in E. destruct (Nat.eqb_spec k (length (arrays s))) as [->|N].
  - injection E as <-. cbn [flag dims places memory] in *. destruct (Q F) as (ny & nx & Ed & Z). exists ny, nx. split; [exact Ed|]. intros i p P Fa.
    pose proof (nth_error_lt _ _ _ P) as Li. rewrite seq_length in Li. rewrite (nth_error_nth' _ 0%nat) in P by now rewrite seq_length. rewrite seq_nth in P by exact Li. injection P as <-.
    unfold cell. rewrite app_nth2, Nat.sub_diag by lia. cbn [nth Nat.add]. apply (Z i); [|exact Fa]. now apply nth_error_nth'.
  - destruct (D k a E F) as (ny & nx & Ed & Z). exists ny, nx. split; [exact Ed|]. intros i p P Fa. rewrite <- (Z i p P Fa). unfold cell. rewrite app_nth1; [reflexivity|].
    now destruct (wf_nth _ _ _ W E).
Qed.
Lemma discs_make_circular s k s' : wf s -> discs s -> make_circular s k = Some s' -> discs s'.
Proof.
  intros W D H. pose proof H as H0. unfold make_circular in H. destruct (nth_error (arrays s) k) as [a|] eqn:E; [|discriminate]. destruct (negb (is_window a)); [discriminate|].
  destruct (dims a) as [|ny [|nx [|q l]]] eqn:Ed; try discriminate; [now injection H as <-|].
  destruct (make_circular_values s k s' a ny nx W H0 E Ed) as [A V].
  destruct ((ny =? 1) && negb (nx =? 1))%nat; [discriminate|]. injection H as <-. cbn [arrays blocks] in *.
  pose proof (wf_nth _ _ _ W E) as (K1 & K2 & K3 & K4).
  intros j b Eb F. cbn [arrays blocks] in *. destruct (Nat.eqb_spec j k) as [->|N].
  - rewrite A in Eb. injection Eb as <-. exists ny, nx. split; [reflexivity|]. cbn [places memory]. intros i p P Fa. destruct (V a i p eq_refl P) as [V1 _]. now apply V1.
  - rewrite nth_error_put in Eb. destruct (Nat.eqb_spec j k); [contradiction|]. cbn [andb] in Eb. destruct (D j b Eb F) as (my & mx & Db & Z). exists my, mx. split; [exact Db|].
    intros i p P Fa. rewrite cell_writes; [|exact K1|].
    + rewrite (Z i p P Fa). now destruct (_ && _)%bool.
    + apply Forall_forall. intros q Hq. apply corners_in in Hq. now apply (proj1 (Forall_forall _ _) K3).
Qed.
Lemma discs_step taper s o s' : right_length taper -> wf s -> discs s -> whole o -> step taper s o = Some s' -> discs s'.
Proof.
  intros L W D Ok H. destruct o as [ds vs|n sh nx|k sh nx|k|k i b|k ds|k|k c|k i v]; cbn [step whole] in *; try contradiction.
  - destruct (length vs =? size ds)%nat; [|discriminate]. injection H as <-. apply discs_fresh; auto. discriminate.
  - unfold new_window in H. destruct (shape_of sh nx) as [ds|]; [|discriminate]. destruct (tapered taper _ ds) as [[ds' vs]|] eqn:T; [|discriminate].
    apply (tapered_length _ _ _ _ _ L) in T. destruct (String.eqb _ "circular").
    + apply (discs_make_circular (fresh s vs ds' true (Some "rectangular"%string) false) (length (arrays s))); auto; [now apply wf_fresh|]. apply discs_fresh; auto. discriminate.
    + injection H as <-. apply discs_fresh; auto. discriminate.
  - unfold window_of in H. destruct (shape_of sh nx); [|discriminate]. destruct (nth_error (arrays s) k) as [a|]; [|discriminate]. injection H as <-.
    intros j b Eb F. cbn [add arrays blocks] in *. rewrite nth_error_snoc in Eb. destruct (j =? _)%nat; [injection Eb as <-; discriminate F|]. exact (D j b Eb F).
  - exact (discs_make_circular s k s' W D H).
  - destruct (nth_error (arrays s) k) as [w|] eqn:E; [|discriminate]. injection H as <-. apply discs_fresh; auto. intros F. destruct (D k w E F) as (ny & nx & Ed & Z).
    exists ny, nx. split; [exact Ed|]. intros i v Hv Fa. rewrite values_cell, nth_error_map in Hv. destruct (nth_error (places w) i) as [p|] eqn:P; [|discriminate]. injection Hv as <-. exact (Z i p P Fa).
  - destruct (nth_error (arrays s) k) as [w|] eqn:E; [|discriminate]. injection H as <-. apply discs_fresh; auto. intros F. destruct (D k w E F) as (ny & nx & Ed & Z).
    exists ny, nx. split; [exact Ed|]. intros i v Hv Fa. rewrite values_cell, !nth_error_map in Hv. destruct (nth_error (places w) i) as [p|] eqn:P; [|discriminate]. injection Hv as <-. rewrite (Z i p P Fa). ring.
Qed.
Lemma discs_run taper os : forall s s', right_length taper -> wf s -> discs s -> Forall whole os -> run taper s os = Some s' -> discs s'.
Proof.
  induction os as [|o os IH]; intros s s' L W D F H; cbn in H; [now injection H as <-|]. apply Forall_cons_iff in F. destruct F as [F1 F2].
  destruct (step taper s o) as [s1|] eqn:E; [|discriminate]. apply (IH s1); auto; [now apply (step_wf taper s o)|now apply (discs_step taper s o)].
Qed.
Theorem C102_circular_windows_are_discs taper os s k a : right_length taper -> after taper os s -> Forall whole os -> nth_error (arrays s) k = Some a -> flag a = true ->
  exists ny nx, dims a = [ny; nx] /\ forall y x, (y < ny)%nat -> (x < nx)%nat -> beyond ny nx y x -> element (values (blocks s) a) nx y x = Some 0.
Proof.
  intros L H F E Fl. pose proof (after_wf _ _ _ L H) as W.
  assert (D : discs s) by (apply (discs_run taper os empty s L wf_empty); auto; intros [|i] b Q; discriminate Q).
  destruct (D k a E Fl) as (ny & nx & Ed & Z). exists ny, nx. split; [exact Ed|]. intros y x Hy Hx B. rewrite element_values.
  pose proof (wf_nth _ _ _ W E) as (_ & _ & _ & K4). rewrite Ed in K4. cbn in K4.
  destruct (nth_error (places a) (y * nx + x)) as [p|] eqn:P; [|apply nth_error_None in P; nia]. destruct (row_major nx y x Hx) as [R1 R2].
  cbn [option_map]. f_equal. apply (Z _ _ P). rewrite R1, R2. now apply far_beyond.
Qed.
(** A part of a circular window says it is circular, too, but is not. *)
Definition ones (name : string) (n : nat) : option (list R) := Some (repeat 1 n).
Lemma ones_length : right_length ones.
Proof. intros name n l H. injection H as <-. apply repeat_length. Qed.
Theorem C102_part_of_circular_window_refuted :
  exists s w, after ones [NewWindow None None None; Rows 0 1 3] s /\ nth_error (arrays s) 1 = Some w /\ dims w = [2; 3]%nat /\ flag w = true /\ label w = Some "circular"%string /\
    beyond 2 3 0 0 /\ element (values (blocks s) w) 3 0 0 = Some 1.
Proof.
  destruct (step ones empty (NewWindow None None None)) as [s1|] eqn:E1; [|discriminate E1].
  destruct (C102_new_circular_window ones [] empty s1 None None 3 3 ones_length eq_refl E1 (or_introl eq_refl) (or_intror (conj eq_refl (conj eq_refl eq_refl)))) as (ly & lx & a & Ty & Tx & A & Da & La & Fa & V).
  cbn [empty arrays length] in A. assert (A1 : after ones [NewWindow None None None] s1) by (unfold after; cbn [run]; now rewrite E1).
  destruct (step ones s1 (Rows 0 1 3)) as [s2|] eqn:E2; [|cbn [step] in E2; rewrite A, Da in E2; discriminate E2].
  assert (N1 : length (arrays s1) = 1%nat).
  { pose proof (run_linked ones [NewWindow None None None] [] empty s1 linked_empty A1) as (Q & _). symmetry. exact Q. }
  destruct (C102_derived_windows ones _ s1 (Rows 0 1 3) 0 s2 a ones_length A1 A E2) as (w & Aw & _ & Lw & Fw & _ & _ & _ & R).
  { right. right. left. now exists 1%nat, 3%nat. }
  rewrite N1 in Aw. destruct (R 1%nat 3%nat 3%nat [3%nat] eq_refl Da ltac:(lia)) as [Dw Vw]. exists s2, w.
  split; [unfold after; cbn [run]; rewrite E1, E2; reflexivity|]. split; [exact Aw|]. split; [exact Dw|]. split; [now rewrite Fw|]. split; [now rewrite Lw|].
  split; [unfold beyond; cbn; lia|]. change (size [3%nat]) with 3%nat in Vw. rewrite Vw by (cbn; lia).
  destruct (V 1%nat 0%nat 1 1) as [_ V2]; [injection Ty as <-; reflexivity|injection Tx as <-; reflexivity|]. cbn [Nat.add]. rewrite V2; [f_equal; ring|]. unfold beyond. cbn. lia.
Qed.

(** ** shape_compatible *)

(** With as many axes as the window, data are compatible if the window is not longer along any axis; with fewer axes they are not. *)
Theorem C102_shape_compatible w shape : length w = length shape -> exists b, shape_compatible w shape = Some b /\
  (b = true <-> forall i n m, nth_error w i = Some n -> nth_error shape i = Some m -> (n <= m)%nat).
Proof.
  intros L. unfold shape_compatible. rewrite L, Nat.eqb_refl. replace (length shape <? length shape)%nat with false by (symmetry; apply Nat.ltb_irrefl).
  eexists. split; [reflexivity|]. rewrite negb_true_iff. split.
  - intros E i n m Hn Hm. destruct (Nat.le_gt_cases n m) as [Q|Q]; [exact Q|]. exfalso. assert (T : existsb (fun e => (snd e <? fst e)%nat) (combine w shape) = true); [|congruence].
    apply existsb_exists. exists (n, m). split; [apply nth_error_In with (n := i); now rewrite nth_error_combine, Hn, Hm|]. now apply Nat.ltb_lt.
  - intros H. apply not_true_is_false. intros E. apply existsb_exists in E. destruct E as ([n m] & I & Q). apply In_nth_error in I. destruct I as [i Hi]. rewrite nth_error_combine in Hi.
    destruct (nth_error w i) as [n'|] eqn:Hn; [|discriminate]. destruct (nth_error shape i) as [m'|] eqn:Hm; [|discriminate]. injection Hi as -> ->. apply Nat.ltb_lt in Q. cbn in Q. specialize (H i n m Hn Hm). lia.
Qed.
Theorem C102_shape_compatible_fewer_axes w shape : (length shape < length w)%nat -> shape_compatible w shape = Some false.
Proof. intros H. unfold shape_compatible. apply Nat.ltb_lt in H. now rewrite H. Qed.
(** Data with more axes: a window of one axis has to fit along all of them, and one of more axes raises an error. *)
Theorem C102_shape_compatible_one_axis n shape : (2 <= length shape)%nat -> exists b, shape_compatible [n] shape = Some b /\ (b = true <-> Forall (fun m => (n <= m)%nat) shape).
Proof.
  intros L. unfold shape_compatible. cbn [length]. destruct (Nat.ltb_spec (length shape) 1); [lia|]. destruct (Nat.eqb_spec 1 (length shape)); [lia|]. eexists. split; [reflexivity|].
  rewrite negb_true_iff. split.
  - intros E. apply Forall_forall. intros m I. destruct (Nat.le_gt_cases n m) as [Q|Q]; [exact Q|]. exfalso. assert (T : existsb (fun m => (m <? n)%nat) shape = true); [|congruence].
    apply existsb_exists. exists m. split; [exact I|now apply Nat.ltb_lt].
  - intros F. apply not_true_is_false. intros E. apply existsb_exists in E. destruct E as (m & I & Q). apply Nat.ltb_lt in Q. apply (proj1 (Forall_forall _ _) F) in I. lia.
Qed.
Theorem C102_shape_compatible_more_axes_refuted w shape : (2 <= length w)%nat -> (length w < length shape)%nat -> shape_compatible w shape = None.
Proof.
  intros A B. unfold shape_compatible. destruct (Nat.ltb_spec (length shape) (length w)); [lia|]. destruct (Nat.eqb_spec (length w) (length shape)); [lia|].
  destruct w as [|w0 [|w1 w]]; cbn in A; try lia. reflexivity.
Qed.

(** ** Plot *)

Lemma fold_min l : forall v0 v, In v l -> fold_right Rmin v0 l <= v.
Proof. induction l as [|a l IH]; intros v0 v I; [destruct I|]. cbn. destruct I as [->|I]; [apply Rmin_l|]. eapply Rle_trans; [apply Rmin_r|now apply IH]. Qed.
Lemma fold_max l : forall v0 v, In v l -> v <= fold_right Rmax v0 l.
Proof. induction l as [|a l IH]; intros v0 v I; [destruct I|]. cbn. destruct I as [->|I]; [apply Rmax_l|]. eapply Rle_trans; [now apply IH|apply Rmax_r]. Qed.
Lemma fold_min_in l : forall v0, fold_right Rmin v0 l = v0 \/ In (fold_right Rmin v0 l) l.
Proof. induction l as [|a l IH]; intros v0; [now left|]. cbn [fold_right In]. destruct (Rle_dec a (fold_right Rmin v0 l)) as [Q|Q]; [rewrite Rmin_left by exact Q; auto|rewrite Rmin_right by lra]. destruct (IH v0); auto. Qed.
Lemma fold_max_in l : forall v0, fold_right Rmax v0 l = v0 \/ In (fold_right Rmax v0 l) l.
Proof. induction l as [|a l IH]; intros v0; [now left|]. cbn [fold_right In]. destruct (Rle_dec (fold_right Rmax v0 l) a) as [Q|Q]; [rewrite Rmax_left by exact Q; auto|rewrite Rmax_right by lra]. destruct (IH v0); auto. Qed.
Lemma written_close v : (frac_part v = 0 -> written v = v) /\ Rabs (written v - v) <= 1 / 20000.
Proof.
  unfold written. destruct (Req_EM_T (frac_part v) 0) as [E|E].
  - split; [reflexivity|]. replace (v - v) with 0 by ring. rewrite Rabs_R0. lra.
  - split; [contradiction|]. unfold round4. destruct (base_Int_part (v * 10000 + 1 / 2)) as [A B]. apply Rabs_le. split; lra.
Qed.
(** The figure of a valid window has its coefficients as an image, a window of one axis as a column.  The labels of rows and columns are the
    offsets from the origin.  Each coefficient is written in its pixel, whole numbers as they are, others rounded to four decimals, in the second
    colour if it is greater than the middle of the range of coefficients. *)
Theorem C102_plot a vs f : plot true a vs = Some f -> length vs = size (dims a) ->
  exists ky kx, (dims a = [ky; kx] \/ dims a = [ky] /\ kx = 1%nat) /\ rows f = ky /\ columns f = kx /\ image f = vs /\
    length (x_labels f) = kx /\ length (y_labels f) = ky /\
    (forall x, (x < kx)%nat -> nth_error (x_labels f) x = Some (Z.of_nat x - Z.of_nat (kx / 2))%Z) /\
    (forall y, (y < ky)%nat -> nth_error (y_labels f) y = Some (Z.of_nat y - Z.of_nat (ky / 2))%Z) /\
    length (texts f) = (ky * kx)%nat /\
    forall y x, (y < ky)%nat -> (x < kx)%nat -> exists v t, element vs kx y x = Some v /\ nth_error (texts f) (y * kx + x) = Some t /\
      column t = x /\ row t = y /\ (frac_part v = 0 -> number t = v) /\ Rabs (number t - v) <= 1 / 20000 /\
      forall lo hi, In lo vs -> In hi vs -> Forall (fun u => lo <= u <= hi) vs -> (second_colour t = true <-> (lo + hi) / 2 < v).
Proof.
  intros H L. unfold plot in H. destruct (negb (is_valid a)); [discriminate|].
  assert (K : exists ky kx, (dims a = [ky; kx] \/ dims a = [ky] /\ kx = 1%nat) /\
    match dims a with [n] => Some (n, 1%nat) | [ny; nx] => Some (ny, nx) | _ => None end = Some (ky, kx)).
  { destruct (dims a) as [|ky [|kx [|q l]]]; try discriminate H; [exists ky, 1%nat|exists ky, kx]; split; auto. }
  destruct K as (ky & kx & D & K). rewrite K in H. destruct vs as [|v0 vs0] eqn:Ev; [discriminate|]. rewrite <- Ev in *. injection H as <-.
  exists ky, kx. split; [exact D|]. cbn [rows columns image x_labels y_labels texts].
  assert (Lv : length vs = (ky * kx)%nat) by (destruct D as [D|[D ->]]; rewrite D in L; cbn in L; lia).
  assert (Sq : forall n i, (i < n)%nat -> nth_error (seq 0 n) i = Some i).
  { intros n i Hi. rewrite (nth_error_nth' _ 0%nat) by now rewrite seq_length. now rewrite seq_nth. }
  do 3 (split; [reflexivity|]). split; [now rewrite map_length, seq_length|]. split; [now rewrite map_length, seq_length|].
  split; [intros x Hx; now rewrite nth_error_map, Sq|]. split; [intros y Hy; now rewrite nth_error_map, Sq|].
  split; [rewrite map_length, combine_length, seq_length; lia|]. intros y x Hy Hx.
  assert (Hi : (y * kx + x < length vs)%nat) by nia.
  destruct (nth_error vs (y * kx + x)) as [v|] eqn:V; [|apply nth_error_None in V; lia].
  eexists v, _. split; [exact V|]. split; [rewrite nth_error_map, nth_error_combine, Sq, V by exact Hi; reflexivity|]. cbn [fst snd column row number second_colour].
  destruct (row_major kx y x Hx) as [R1 R2]. split; [exact R2|]. split; [exact R1|]. split; [apply written_close|]. split; [apply written_close|].
  intros lo hi Ilo Ihi F. rewrite Forall_forall in F.
  assert (Iv0 : In v0 vs) by (rewrite Ev; now left).
  assert (Elo : fold_right Rmin v0 vs = lo).
  { apply Rle_antisym; [now apply fold_min|]. destruct (fold_min_in vs v0) as [-> | I]; now apply F. }
  assert (Ehi : fold_right Rmax v0 vs = hi).
  { apply Rle_antisym; [|now apply fold_max]. destruct (fold_max_in vs v0) as [-> | I]; now apply F. }
  rewrite Elo, Ehi. assert (Bv : lo <= v <= hi) by (apply F; now apply nth_error_In in V).
  unfold norm. destruct (Req_EM_T lo hi) as [E|E].
  - destruct (Rlt_dec _ _); [lra|]. split; [discriminate|lra].
  - assert (P : 0 < hi - lo) by (pose proof (F hi Ihi); lra).
    assert (Q : (hi - lo) / (hi - lo) / 2 < (v - lo) / (hi - lo) <-> (lo + hi) / 2 < v).
    { replace ((hi - lo) / (hi - lo) / 2) with (((hi - lo) / 2) / (hi - lo)) by (field; lra). split; intros G.
      - apply Rmult_lt_reg_r in G; [lra|now apply Rinv_0_lt_compat].
      - apply Rmult_lt_compat_r; [now apply Rinv_0_lt_compat|lra]. }
    destruct (Rlt_dec _ _) as [G|G]; split; intros; try discriminate; try reflexivity; tauto.
Qed.
(** It is refused for windows without a name or with more than two axes; without values nothing is written. *)
Theorem C102_plot_refused_iff show a vs : vs <> [] -> dims a <> [] -> (plot show a vs = None <-> is_window a = false \/ label a = None \/ (3 <= length (dims a))%nat).
Proof.
  intros N D. unfold plot, is_valid. destruct (is_window a); cbn [andb]; [|split; [now left|reflexivity]]. destruct (label a) as [l|]; cbn [andb]; [|split; [intros _; right; now left|reflexivity]].
  destruct (Nat.ltb_spec (length (dims a)) 3) as [Q|Q]; cbn [negb]; [|split; [intros _; right; now right|reflexivity]].
  destruct vs as [|v vs]; [contradiction|]. destruct (dims a) as [|n [|m [|q ds]]]; [contradiction| | |cbn in Q; lia]; (split; [discriminate|intros [X|[X|X]]; try discriminate; lia]).
Qed.
Theorem C102_plot_without_values a vs f g : plot true a vs = Some f -> plot false a vs = Some g ->
  texts g = [] /\ image g = image f /\ x_labels g = x_labels f /\ y_labels g = y_labels f.
Proof.
  unfold plot. destruct (negb (is_valid a)); [discriminate|]. destruct (match dims a with [n] => _ | [ny; nx] => _ | _ => None end) as [[ky kx]|]; [|discriminate].
  destruct vs; [discriminate|]. intros H K. injection H as <-. injection K as <-. repeat split.
Qed.

(** ** Cases *)
Example C102_case : exists s, after ones [NewWindow (Some "boxcar"%string) (Some [5; 4]%Z) None; Copy 0; MakeCircular 1; NewArray [2; 2]%nat [1; 2; 3; 4]; WindowOf 2 None None; Times 1 2] s /\
  map label (arrays s) = [Some "boxcar"; Some "circular"; None; Some "custom"; Some "circular"]%string /\ map flag (arrays s) = [false; true; false; false; true] /\
  owners [NewWindow (Some "boxcar"%string) (Some [5; 4]%Z) None; Copy 0; MakeCircular 1; NewArray [2; 2]%nat [1; 2; 3; 4]; WindowOf 2 None None; Times 1 2] = [0; 1; 2; 2; 4]%nat.
Proof. eexists. split; [reflexivity|]. split; [reflexivity|]. split; reflexivity. Qed.
Example C102_plot_case : exists f, plot true (Arr 0 [0; 1; 2]%nat [3%nat] true (Some "custom"%string) false) [1; 2; 4] = Some f /\ y_labels f = [-1; 0; 1]%Z /\ map row (texts f) = [0; 1; 2]%nat.
Proof. eexists. split; [reflexivity|]. split; reflexivity. Qed.
Example C102_compatible_case : shape_compatible [3; 3]%nat [5; 4]%nat = Some true /\ shape_compatible [3; 3]%nat [5; 2]%nat = Some false /\ shape_compatible [3; 3]%nat [5; 4; 60; 60]%nat = None /\ shape_compatible [3]%nat [5; 2]%nat = Some false.
Proof. repeat split. Qed.

Print Assumptions C102_only_relatives_change.
Print Assumptions C102_circular_windows_are_discs.
Print Assumptions C102_plot.
