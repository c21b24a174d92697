(** C81: dictionary indexing with a metric which is used again. *)
From Coq Require Import List Arith Bool Lia.
From Verif Require Import Model.Binary Model.DictIndex Model.MetricState Spec.MetricSpec Proofs.MetricStateProofs.
Import ListNotations.

Section C.
Context {Pixel Dtype Score : Type} (zero : Pixel) (float32 : Dtype) (allowed : Dtype -> bool) (cast : Dtype -> Pixel -> Pixel).
Context (similarity : Dtype -> list Pixel -> list Pixel -> Score).
Notation metric := (metric Dtype). Notation call := (call Pixel Dtype).
Notation dictionary_indexing := (dictionary_indexing Pixel Dtype Score allowed cast similarity).
Notation run := (run Pixel Dtype Score allowed cast similarity).
Notation documented := (documented zero cast similarity).
Notation experimental := (experimental Pixel Dtype). Notation dictionary := (dictionary Pixel Dtype).
Notation nav_shape := (nav_shape Pixel). Notation sig_shape := (sig_shape Pixel).

(** A call with signals of equal signal shape and masks of their shapes, if given. *)
Definition in_order (c : call) : Prop :=
  full (experimental c) /\ full (dictionary c) /\ sig_shape (experimental c) = sig_shape (dictionary c) /\
  of_shape (c_navigation_mask _ _ c) (nav_shape (experimental c)) /\ leaves_some (c_navigation_mask _ _ c) /\
  of_shape (c_signal_mask _ _ c) (sig_shape (experimental c)).
(** The value given last in a series of calls. *)
Definition given_last {A} (f : call -> option A) (l : list call) : option A :=
  fold_left (fun last c => match f c with Some x => Some x | None => last end) l None.
Definition otherwise {A} (a b : option A) : option A := match a with Some x => Some x | None => b end.

Lemma passes : forall m c, in_order c ->
  dictionary_indexing m c = (fst (prepare_metric Pixel Dtype allowed m c),
    if allowed (dtype _ (fst (prepare_metric Pixel Dtype allowed m c))) then match_all _ _ _ cast similarity (fst (prepare_metric Pixel Dtype allowed m c)) c else None).
Proof.
  intros m c (FE & FD & ES & NM & LS & SM). unfold MetricState.dictionary_indexing.
  assert (R : forall l, shape_eqb l l = true) by (intro l; unfold shape_eqb; destruct (list_eq_dec Nat.eq_dec l l); congruence).
  rewrite ES, R. destruct (c_navigation_mask _ _ c) as [nm|].
  - destruct NM as [-> _]. rewrite R. cbn in LS.
    assert (F : forallb (fun b => b) (ravel nm) = false).
    { destruct (forallb _ _) eqn:E; [|reflexivity]. rewrite forallb_forall in E. apply E in LS. discriminate. }
    rewrite F. reflexivity.
  - reflexivity.
Qed.

(** An object keeps what it was given last. *)
Theorem C81_metric_remembers : forall m l, Forall in_order l ->
  navigation_mask _ (fst (run m l)) = otherwise (given_last (c_navigation_mask _ _) l) (navigation_mask _ m) /\
  signal_mask _ (fst (run m l)) = otherwise (given_last (c_signal_mask _ _) l) (signal_mask _ m) /\
  Some (dtype _ (fst (run m l))) = otherwise (given_last (c_dtype _ _) l) (Some (dtype _ m)).
Proof.
  intros m l H.
  assert (G : forall A (f : call -> option A) l a b, otherwise (fold_left (fun last c => match f c with Some x => Some x | None => last end) l a) b
     = fold_left (fun last c => match f c with Some x => Some x | None => last end) l (otherwise a b)).
  { clear. intros A f l. induction l as [|c l IH]; intros a b; cbn [fold_left]; [reflexivity|]. rewrite IH. destruct (f c); reflexivity. }
  unfold given_last. rewrite !G. cbn [otherwise]. clear G. revert m. induction H as [|c l Hc H IH]; intro m; [repeat split|].
  cbn [MetricState.run]. rewrite (passes m c Hc). set (m' := fst (prepare_metric Pixel Dtype allowed m c)). cbn iota.
  specialize (IH m'). destruct (run m' l) as [m'' rs] eqn:ER. cbn [fst] in *. destruct IH as (-> & -> & ->). cbn [fold_left].
  unfold m', prepare_metric. cbn [fst navigation_mask signal_mask dtype]. unfold or_else.
  repeat split. destruct (c_dtype _ _ c); reflexivity.
Qed.

(** The result of any call in any series: the masks and the data type which were given last are used. *)
Theorem C81_result_of_each_call : forall m l c,
  Forall in_order l -> in_order c ->
  let nm := otherwise (c_navigation_mask _ _ c) (otherwise (given_last (c_navigation_mask _ _) l) (navigation_mask _ m)) in
  let sm := otherwise (c_signal_mask _ _ c) (otherwise (given_last (c_signal_mask _ _) l) (signal_mask _ m)) in
  forall d, Some d = otherwise (c_dtype _ _ c) (otherwise (given_last (c_dtype _ _) l) (Some (dtype _ m))) ->
  of_shape nm (nav_shape (experimental c)) -> of_shape sm (sig_shape (experimental c)) ->
  snd (dictionary_indexing (fst (run m l)) c) =
  if allowed d then Some (documented (experimental c) (dictionary c) nm sm d) else None.
Proof.
  intros m l c Hl Hc nm sm d Hd HN HS. destruct (C81_metric_remembers m l Hl) as (EN & ES & ED).
  rewrite passes by exact Hc. cbn [snd].
  assert (D : dtype _ (fst (prepare_metric Pixel Dtype allowed (fst (run m l)) c)) = d).
  { unfold prepare_metric. cbn [fst dtype]. unfold otherwise at 1 in Hd. destruct (c_dtype _ _ c); [congruence|]. rewrite <- ED in Hd. congruence. }
  rewrite D. destruct (allowed d); [|reflexivity]. destruct Hc as (FE & FD & EQ & _).
  rewrite (match_documented zero); auto.
  - rewrite D. unfold prepare_metric. cbn [fst navigation_mask signal_mask].
    unfold or_else. rewrite EN, ES. reflexivity.
  - cbn. f_equal. destruct FE as [FE _]. unfold product. lia.
  - cbn. f_equal. destruct FD as [FD _]. unfold product. lia.
  - unfold prepare_metric. cbn [fst navigation_mask]. unfold or_else. rewrite EN. exact HN.
  - unfold prepare_metric. cbn [fst signal_mask]. unfold or_else. rewrite ES. 
    change (match sm with Some s => length (ravel s) = product (sig_shape (experimental c)) | None => True end).
    destruct sm; [apply HS|exact I].
Qed.

(** So calls which give both masks and the data type do not depend on earlier ones... *)
Theorem C81_all_arguments_given_partial : forall m l c nm sm d,
  Forall in_order l -> in_order c ->
  c_navigation_mask _ _ c = Some nm -> c_signal_mask _ _ c = Some sm -> c_dtype _ _ c = Some d -> allowed d = true ->
  snd (dictionary_indexing (fst (run m l)) c) = Some (documented (experimental c) (dictionary c) (Some nm) (Some sm) d).
Proof.
  intros m l c nm sm d Hl Hc EN ES ED A.
  rewrite (C81_result_of_each_call m l c Hl Hc d); rewrite ?EN, ?ES, ?ED, ?A; cbn [otherwise]; try reflexivity.
  - destruct Hc as (_ & _ & _ & H & _). rewrite EN in H. exact H.
  - destruct Hc as (_ & _ & _ & _ & _ & H). rewrite ES in H. exact H.
Qed.
(** ... nor do calls of which the earlier ones gave none of these... *)
Theorem C81_nothing_given_before_partial : forall l c,
  Forall in_order l -> in_order c ->
  Forall (fun c => c_navigation_mask _ _ c = None /\ c_signal_mask _ _ c = None /\ c_dtype _ _ c = None) l ->
  let d := match c_dtype _ _ c with Some d => d | None => float32 end in
  snd (dictionary_indexing (fst (run (new_metric _ float32) l)) c) =
  if allowed d then Some (documented (experimental c) (dictionary c) (c_navigation_mask _ _ c) (c_signal_mask _ _ c) d) else None.
Proof.
  intros l c Hl Hc HN d.
  assert (G : forall A (f : call -> option A), (forall c, In c l -> f c = None) -> given_last f l = None).
  { clear. intros A f. unfold given_last. induction l as [|c l IH]; intros H; [reflexivity|]. cbn [fold_left].
    rewrite (H c) by (left; reflexivity). apply IH. intros. apply H. right. assumption. }
  rewrite Forall_forall in HN.
  assert (E1 := G _ (c_navigation_mask _ _) (fun c H => proj1 (HN c H))).
  assert (E2 := G _ (c_signal_mask _ _) (fun c H => proj1 (proj2 (HN c H)))).
  assert (E3 := G _ (c_dtype _ _) (fun c H => proj2 (proj2 (HN c H)))).
  rewrite (C81_result_of_each_call (new_metric _ float32) l c Hl Hc d); rewrite ?E1, ?E2, ?E3; cbn [otherwise navigation_mask signal_mask dtype new_metric].
  - unfold otherwise. destruct (c_navigation_mask _ _ c), (c_signal_mask _ _ c); reflexivity.
  - unfold d, otherwise. destruct (c_dtype _ _ c); reflexivity.
  - destruct Hc as (_ & _ & _ & H & _). unfold otherwise. destruct (c_navigation_mask _ _ c); exact H.
  - destruct Hc as (_ & _ & _ & _ & _ & H). unfold otherwise. destruct (c_signal_mask _ _ c); exact H.
Qed.
(** ... nor do calls with the name of a metric. *)
Theorem C81_by_name : forall rechunk c, in_order c ->
  let d := match c_dtype _ _ c with Some d => d | None => float32 end in
  dictionary_indexing_by_name Pixel Dtype Score float32 allowed cast similarity rechunk c =
  if allowed d then Some (documented (experimental c) (dictionary c) (c_navigation_mask _ _ c) (c_signal_mask _ _ c) d) else None.
Proof.
  intros rechunk c Hc d. pose proof (C81_result_of_each_call (Metric Dtype None None None None float32 rechunk) [] c (Forall_nil _) Hc d) as R.
  cbn [MetricState.run fst given_last fold_left otherwise navigation_mask signal_mask dtype] in R.
  unfold dictionary_indexing_by_name. rewrite R.
  - unfold otherwise. destruct (c_navigation_mask _ _ c), (c_signal_mask _ _ c); reflexivity.
  - unfold d. destruct (c_dtype _ _ c); reflexivity.
  - destruct Hc as (_ & _ & _ & H & _). unfold otherwise. destruct (c_navigation_mask _ _ c); exact H.
  - destruct Hc as (_ & _ & _ & _ & _ & H). unfold otherwise. destruct (c_signal_mask _ _ c); exact H.
Qed.

(** But a mask of an earlier call is used when none is given, and points which were to be indexed are not. *)
Theorem C81_mask_of_an_earlier_call_refuted : forall c nm r,
  in_order c -> c_navigation_mask _ _ c = Some nm -> nth r (ravel nm) false = true -> allowed (match c_dtype _ _ c with Some d => d | None => float32 end) = true ->
  let again := Call _ _ (experimental c) (dictionary c) None (c_signal_mask _ _ c) (c_dtype _ _ c) in
  exists res, snd (dictionary_indexing (fst (run (new_metric _ float32) [c])) again) = Some res /\ nth_error res r = Some None /\
  exists fresh s, snd (dictionary_indexing (new_metric _ float32) again) = Some fresh /\ nth_error fresh r = Some (Some s).
Proof.
  intros c nm r Hc EN Hr A again.
  assert (Ha : in_order again).
  { destruct Hc as (H1 & H2 & H3 & H4 & H5 & H6). repeat split; cbn; auto; try apply H1; apply H2. }
  pose proof Hc as (H1 & H2 & H3 & H4 & H5 & H6).
  rewrite EN in H4. destruct H4 as [S1 S2].
  assert (Rn : r < fold_right Nat.mul 1 (nav_shape (experimental c))).
  { rewrite <- S2. destruct (Nat.lt_ge_cases r (length (ravel nm))) as [L|L]; [exact L|]. rewrite nth_overflow in Hr by exact L. discriminate. }
  set (d := match c_dtype _ _ c with Some d => d | None => float32 end) in *.
  pose proof (C81_result_of_each_call (new_metric _ float32) [c] again (Forall_cons _ Hc (Forall_nil _)) Ha d) as R.
  pose proof (C81_result_of_each_call (new_metric _ float32) [] again (Forall_nil _) Ha d) as R0.
  unfold given_last in R, R0. cbn [fold_left c_navigation_mask c_signal_mask c_dtype again experimental dictionary MetricState.experimental MetricState.dictionary] in R, R0.
  rewrite EN in R. rewrite A in R, R0. eexists. split; [apply R|split].
  - unfold d, otherwise. destruct (c_dtype _ _ c); reflexivity.
  - split; assumption.
  - unfold otherwise. destruct (c_signal_mask _ _ c); [exact H6|exact I].
  - unfold MetricSpec.documented. rewrite nth_error_map, (nth_error_nth' _ 0) by (rewrite seq_length; exact Rn).
    rewrite seq_nth by exact Rn. cbn [option_map Nat.add otherwise hidden]. rewrite Hr. reflexivity.
  - eexists _, _. split; [apply R0|].
    + unfold d, otherwise. destruct (c_dtype _ _ c); reflexivity.
    + exact I.
    + unfold otherwise. destruct (c_signal_mask _ _ c); [exact H6|exact I].
    + unfold MetricSpec.documented. rewrite nth_error_map, (nth_error_nth' _ 0) by (rewrite seq_length; exact Rn).
      rewrite seq_nth by exact Rn. reflexivity.
Qed.
(** And a call refused for its data type makes later calls fail. *)
Theorem C81_refused_call_refuted : forall c d, in_order c -> c_dtype _ _ c = Some d -> allowed d = false -> allowed float32 = true ->
  snd (dictionary_indexing (new_metric _ float32) c) = None /\
  let again := Call _ _ (experimental c) (dictionary c) (c_navigation_mask _ _ c) (c_signal_mask _ _ c) None in
  snd (dictionary_indexing (fst (run (new_metric _ float32) [c])) again) = None /\
  snd (dictionary_indexing (new_metric _ float32) again) <> None.
Proof.
  intros c d Hc ED A F.
  assert (Ha : in_order (Call _ _ (experimental c) (dictionary c) (c_navigation_mask _ _ c) (c_signal_mask _ _ c) None)) by exact Hc.
  set (again := Call _ _ _ _ _ _ _) in *.
  split.
  - rewrite passes by exact Hc. unfold prepare_metric. cbn [fst snd dtype]. rewrite ED, A. reflexivity.
  - cbn [MetricState.run]. rewrite (passes _ c Hc). cbn [fst]. split.
    + rewrite passes by exact Ha. unfold prepare_metric. cbn [fst snd dtype c_dtype again]. rewrite ED, A. reflexivity.
    + pose proof (C81_nothing_given_before_partial [] again (Forall_nil _) Ha (Forall_nil _)) as R. cbn [c_dtype again MetricState.run fst] in R.
      rewrite R, F. discriminate.
Qed.
(** A signal mask with rows and columns exchanged is accepted, as only its number of pixels counts. *)
Theorem C81_signal_mask_of_another_shape_refuted : forall c v ny nx,
  in_order c -> sig_shape (experimental c) = [ny; nx] -> c_navigation_mask _ _ c = None -> length v = ny * nx ->
  allowed (match c_dtype _ _ c with Some d => d | None => float32 end) = true ->
  let exchanged := Call _ _ (experimental c) (dictionary c) None (Some (Mask [nx; ny] v)) (c_dtype _ _ c) in
  let d := match c_dtype _ _ c with Some d => d | None => float32 end in
  snd (dictionary_indexing (new_metric _ float32) exchanged) =
  Some (documented (experimental c) (dictionary c) None (Some (Mask [ny; nx] v)) d).
Proof.
  intros c v ny nx Hc ES EN L A exchanged d.
  pose (right := Call _ _ (experimental c) (dictionary c) None (Some (Mask [ny; nx] v)) (c_dtype _ _ c)).
  assert (Hr : in_order right).
  { destruct Hc as (H1 & H2 & H3 & H4 & H5 & H6). repeat split; cbn; auto; try apply H1; try apply H2; rewrite ES; cbn; lia. }
  transitivity (snd (dictionary_indexing (new_metric _ float32) right)).
  { unfold MetricState.dictionary_indexing. cbn [c_navigation_mask MetricState.experimental MetricState.dictionary exchanged right].
    destruct (shape_eqb _ _); reflexivity. }
  pose proof (C81_nothing_given_before_partial [] right (Forall_nil _) Hr (Forall_nil _)) as R.
  cbn [c_dtype right MetricState.run fst c_navigation_mask c_signal_mask MetricState.experimental MetricState.dictionary] in R. rewrite R.
  fold d in A |- *. rewrite A. reflexivity.
Qed.
(** Signals of different signal shape, or a navigation mask of another shape or without a point left: the call is refused before it changes
    the metric. *)
Theorem C81_unfit_call : forall m c,
  sig_shape (experimental c) <> sig_shape (dictionary c)
  \/ (exists nm, c_navigation_mask _ _ c = Some nm /\ (shape nm <> nav_shape (experimental c) \/ ~ In false (ravel nm))) ->
  dictionary_indexing m c = (m, None).
Proof.
  intros m c H. unfold MetricState.dictionary_indexing.
  assert (R : forall a b, a <> b -> shape_eqb a b = false) by (intros a b N; unfold shape_eqb; destruct (list_eq_dec Nat.eq_dec a b); congruence).
  destruct H as [H|(nm & -> & [H|H])].
  - rewrite (R _ _ H), andb_false_r. reflexivity.
  - rewrite (R _ _ H). reflexivity.
  - replace (forallb (fun b => b) (ravel nm)) with true; [rewrite andb_false_r; reflexivity|]. symmetry. apply forallb_forall. intros [] B; [reflexivity|contradiction].
Qed.
End C.
Print Assumptions C81_result_of_each_call.

(** The hypotheses hold: two patterns of two pixels, a dictionary of one pattern and a mask of the first pattern. *)
Definition two_patterns : signal nat := Signal _ [2] [1; 2] [1; 2; 3; 4].
Definition one_pattern : signal nat := Signal _ [1] [1; 2] [5; 6].
Definition masked_call : call nat bool := Call _ _ two_patterns one_pattern (Some (Mask [2] [true; false])) None None.
Example C81_case : in_order masked_call /\
  snd (dictionary_indexing nat bool nat (fun b => b) (fun _ x => x) (fun _ a b => fold_right Nat.add 0 a + fold_right Nat.add 0 b) (new_metric _ true) masked_call)
  = Some [None; Some [18]].
Proof. split; [repeat split; cbn; auto|reflexivity]. Qed.
Definition refused_call : call nat bool := Call _ _ two_patterns one_pattern None None (Some false).
Example C81_case_refused : in_order refused_call /\ (fun b : bool => b) false = false.
Proof. repeat split; cbn; auto. Qed.
Example C81_case_unfit : sig_shape nat two_patterns <> sig_shape nat (Signal _ [1] [2; 2] [1; 2; 3; 4]) /\ ~ In false (ravel (Mask [2] [true; true])).
Proof. split; [discriminate|]. intros [|[|[]]]; discriminate. Qed.
