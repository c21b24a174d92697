(** Methods re-exported by the signal classes (property C50). *)
From Coq Require Import String List Arith ZArith Bool Lia.
From Verif Require Import Model.Intensity Model.Forwarding.
Import ListNotations.
Local Open Scope string_scope.
Local Open Scope list_scope.

(** ** Binding lemmas *)

Lemma bind_names sig : forall pos kw e, bind sig pos kw = Some e -> map fst e = map fst sig.
Proof.
  induction sig as [|[x d] sig IH]; intros pos kw e; cbn [bind].
  - destruct pos, kw; try discriminate. intros H. injection H as <-. reflexivity.
  - destruct pos as [|v pos].
    + destruct (lookup x kw) as [v|];
        (match goal with |- option_map _ ?b = _ -> _ => destruct b as [e'|] eqn:B; [|discriminate] end);
        cbn; intros H; injection H as <-; cbn; f_equal; eapply IH; exact B.
    + destruct (lookup x kw); [discriminate|]. destruct (bind sig pos kw) as [e'|] eqn:B; [|discriminate].
      cbn. intros H. injection H as <-. cbn. f_equal. eapply IH; exact B.
Qed.

Lemma bind_positional sig : forall e, map fst e = map fst sig -> bind sig (map snd e) [] = Some e.
Proof.
  induction sig as [|[x d] sig IH]; intros [|[y v] e]; cbn; intros H; try discriminate; [reflexivity|].
  injection H as -> H. rewrite (IH _ H). reflexivity.
Qed.

Lemma filter_absent x (e : env) : ~ In x (map fst e) -> filter (fun p => negb (fst p =? x)) e = e.
Proof.
  induction e as [|[y v] e IH]; cbn; intros H; [reflexivity|].
  destruct (String.eqb_spec y x) as [->|N]; [tauto|]. cbn. f_equal. apply IH. tauto.
Qed.

Lemma bind_keywords sig : forall e, map fst e = map fst sig -> NoDup (map fst sig) -> bind sig [] e = Some e.
Proof.
  induction sig as [|[x d] sig IH]; intros [|[y v] e]; cbn; intros H N; try discriminate; [reflexivity|].
  injection H as -> H. inversion N as [|? ? NI N']; subst.
  rewrite String.eqb_refl. cbn. rewrite filter_absent by (rewrite H; exact NI).
  rewrite (IH _ H N'). reflexivity.
Qed.

Lemma values_all : forall (e : env), NoDup (map fst e) -> values e (map fst e) = Some (map snd e).
Proof.
  assert (G : forall e pre, NoDup (map fst pre ++ map fst e) -> values (pre ++ e) (map fst e) = Some (map snd e)).
  { induction e as [|[x v] e IH]; intros pre N; cbn [map fst snd values]; [reflexivity|].
    assert (L : lookup x (pre ++ (x, v) :: e) = Some v).
    { clear IH. induction pre as [|[y w] pre IHp]; cbn.
      - rewrite String.eqb_refl. reflexivity.
      - cbn in N. inversion N as [|? ? NI N']; subst.
        destruct (String.eqb_spec x y) as [->|D]; [|apply IHp; exact N'].
        exfalso. apply NI. apply in_or_app. right. left. reflexivity. }
    rewrite L.
    assert (E : pre ++ (x, v) :: e = (pre ++ [(x, v)]) ++ e) by (rewrite <- app_assoc; reflexivity).
    rewrite E, IH; [reflexivity|]. rewrite map_app, <- app_assoc. exact N. }
  intros e N. apply (G e []). exact N.
Qed.

Lemma combine_names (e : env) : combine (map fst e) (map snd e) = e.
Proof. induction e as [|[x v] e IH]; cbn; [reflexivity|]. f_equal. exact IH. Qed.

Lemma call_bind sig pos kw : NoDup (map fst kw) -> call sig pos kw = bind sig pos kw.
Proof.
  intros N. unfold call. destruct (list_eq_dec _ _ _) as [E|D]; [reflexivity|].
  exfalso. apply D. apply nodup_fixed_point. exact N.
Qed.

Lemma through_positional base pos kw : NoDup (map fst base) ->
  call_through (Override base (map fst base) []) base pos kw = call base pos kw.
Proof.
  intros N. unfold call_through. cbn [o_sig o_pos o_kw].
  destruct (call base pos kw) as [e|] eqn:C; [|reflexivity].
  assert (E : map fst e = map fst base).
  { unfold call in C. destruct (list_eq_dec _ _ _); [|discriminate]. eapply bind_names; exact C. }
  rewrite <- E, values_all by (rewrite E; exact N). cbn [map values combine].
  rewrite call_bind by constructor. apply bind_positional. exact E.
Qed.

Lemma through_keywords base pos kw : NoDup (map fst base) ->
  call_through (Override base [] (combine (map fst base) (map fst base))) base pos kw = call base pos kw.
Proof.
  intros N. unfold call_through. cbn [o_sig o_pos o_kw values].
  destruct (call base pos kw) as [e|] eqn:C; [|reflexivity].
  assert (E : map fst e = map fst base).
  { unfold call in C. destruct (list_eq_dec _ _ _); [|discriminate]. eapply bind_names; exact C. }
  assert (F : forall l : list string, map fst (combine l l) = l) by (induction l as [|x l IH]; cbn; congruence).
  assert (S : forall l : list string, map snd (combine l l) = l) by (induction l as [|x l IH]; cbn; congruence).
  rewrite F, S, <- E, values_all by (rewrite E; exact N).
  rewrite combine_names. rewrite call_bind by (rewrite E; exact N).
  apply bind_keywords; [exact E|exact N].
Qed.

Ltac names := match goal with |- NoDup ?l =>
  let l' := eval cbv in l in change (NoDup l');
  repeat constructor; cbn; intros H; repeat destruct H as [H|H]; discriminate H || exact H end.

(** ** Theorems *)

(** Every way of calling, by position and keyword, gives the inherited method the arguments it would have
    received if called directly (or the same TypeError). *)
Definition forwards (o : override) (base : signature) : Prop :=
  forall pos kw, call_through o base pos kw = call base pos kw.

(** C50 for rescale_intensity and adaptive_histogram_equalization of all classes, and normalize_intensity of
    all classes except VirtualBSEImage. *)
Theorem C50_forwarded_partial :
  forwards rescale_by_position base_rescale /\ forwards rescale_by_keyword base_rescale /\
  forwards normalize_ebsd base_normalize /\ forwards normalize_by_keyword base_normalize /\
  forwards equalize_override base_equalize.
Proof.
  split; [|split; [|split; [|split]]]; intros pos kw.
  - apply (through_positional base_rescale). names.
  - apply (through_keywords base_rescale). names.
  - apply (through_positional base_normalize). names.
  - apply (through_keywords base_normalize). names.
  - apply (through_positional base_equalize). names.
Qed.
Print Assumptions C50_forwarded_partial.

(** C50, refuted for VirtualBSEImage.normalize_intensity, for every call: the inherited method gets
    show_progressbar as dtype_out and dtype_out as show_progressbar. *)
Theorem C50_normalize_swapped_refuted pos kw direct :
  call base_normalize pos kw = Some direct ->
  exists through, call_through normalize_virtual_bse base_normalize pos kw = Some through /\
    lookup "dtype_out" through = lookup "show_progressbar" direct /\
    lookup "show_progressbar" through = lookup "dtype_out" direct /\
    (forall x, x <> "dtype_out" -> x <> "show_progressbar" -> lookup x through = lookup x direct).
Proof.
  intros C. unfold call_through. cbn [o_sig o_pos o_kw normalize_virtual_bse]. rewrite C.
  assert (E : map fst direct = map fst base_normalize).
  { unfold call in C. destruct (list_eq_dec _ _ _); [|discriminate]. eapply bind_names; exact C. }
  clear C.
  destruct direct as [|[x0 v0] [|[x1 v1] [|[x2 v2] [|[x3 v3] [|[x4 v4] [|[x5 v5] [|[x6 v6] r]]]]]]]; try discriminate E.
  cbn in E. injection E as -> -> -> -> -> ->.
  eexists. split; [reflexivity|]. split; [reflexivity|]. split; [reflexivity|].
  intros x D S. cbn. destruct (String.eqb_spec x "num_std"); [reflexivity|].
  destruct (String.eqb_spec x "divide_by_square_root"); [reflexivity|].
  destruct (String.eqb_spec x "dtype_out"); [congruence|].
  destruct (String.eqb_spec x "show_progressbar"); [congruence|]. reflexivity.
Qed.
Print Assumptions C50_normalize_swapped_refuted.

(** Consequences for the user, for images of any data type and any other arguments: a requested data type is
    ignored when show_progressbar is not given... *)
Theorem C50_normalize_ignores_dtype_refuted own t pos kw direct :
  call base_normalize pos kw = Some direct -> lookup "dtype_out" direct = Some (VDtype t) ->
  lookup "show_progressbar" direct = Some VNone -> lookup "inplace" direct = Some (VBool true) ->
  lookup "lazy_output" direct = Some VNone ->
  normalize_dtype own (call base_normalize pos kw) = Some t /\
  normalize_dtype own (call_through normalize_virtual_bse base_normalize pos kw) = Some own.
Proof.
  intros C D S I L. destruct (C50_normalize_swapped_refuted pos kw direct C) as [th [T [A [B O]]]].
  rewrite C, T. unfold normalize_dtype. rewrite D, I, L, A, S, !O, I, L by discriminate. split; reflexivity.
Qed.
Print Assumptions C50_normalize_ignores_dtype_refuted.

(** ... and asking for (or against) a progressbar is an error. *)
Theorem C50_normalize_progressbar_fails_refuted own b pos kw direct :
  call base_normalize pos kw = Some direct -> lookup "show_progressbar" direct = Some (VBool b) ->
  normalize_dtype own (call_through normalize_virtual_bse base_normalize pos kw) = None.
Proof.
  intros C S. destruct (C50_normalize_swapped_refuted pos kw direct C) as [th [T [A [B O]]]].
  rewrite T. unfold normalize_dtype. rewrite A, S. destruct (lookup "inplace" th), (lookup "lazy_output" th); try reflexivity.
  destruct (truthy p0 && truthy p); reflexivity.
Qed.
Print Assumptions C50_normalize_progressbar_fails_refuted.

(** With neither given, VirtualBSEImage.normalize_intensity does what the inherited method does. *)
Theorem C50_normalize_defaults_partial pos kw direct :
  call base_normalize pos kw = Some direct -> lookup "dtype_out" direct = lookup "show_progressbar" direct ->
  exists through, call_through normalize_virtual_bse base_normalize pos kw = Some through /\
    forall x, lookup x through = lookup x direct.
Proof.
  intros C S. destruct (C50_normalize_swapped_refuted pos kw direct C) as [th [T [A [B O]]]].
  exists th. split; [exact T|]. intros x.
  destruct (String.eqb_spec x "dtype_out") as [->|D]; [congruence|].
  destruct (String.eqb_spec x "show_progressbar") as [->|D2]; [congruence|]. apply O; assumption.
Qed.
Print Assumptions C50_normalize_defaults_partial.

(** ** Concrete calls *)

(** image.normalize_intensity(dtype_out=np.float32), image of type uint8. *)
Example example_call : exists direct, call base_normalize [] [("dtype_out", VDtype Float32)] = Some direct /\
  lookup "dtype_out" direct = Some (VDtype Float32) /\ lookup "show_progressbar" direct = Some VNone /\
  lookup "inplace" direct = Some (VBool true) /\ lookup "lazy_output" direct = Some VNone.
Proof. eexists. repeat split. Qed.
Example example_result :
  normalize_dtype UInt8 (call_through normalize_virtual_bse base_normalize [] [("dtype_out", VDtype Float32)]) = Some UInt8.
Proof. reflexivity. Qed.
Example example_mixed : call base_rescale [VBool true] [("dtype_out", VDtype UInt16); ("inplace", VBool false)] <> None.
Proof. discriminate. Qed.
(** A keyword that is also given by position is rejected. *)
Example example_rejected : call base_rescale [VBool true] [("relative", VBool true)] = None.
Proof. reflexivity. Qed.

(** Called without arguments, all of these methods change the signal in place, in its own data type and with the same
    values as if they were not overridden. *)
Theorem C50_no_arguments :
  (forall o b, In (o, b) [(rescale_by_position, base_rescale); (rescale_by_keyword, base_rescale); (normalize_ebsd, base_normalize);
     (normalize_by_keyword, base_normalize); (normalize_virtual_bse, base_normalize); (equalize_override, base_equalize)] ->
     exists e, call_through o b [] [] = Some e /\ call b [] [] = Some e /\ lookup "inplace" e = Some (VBool true) /\ lookup "lazy_output" e = Some VNone /\
       lookup "show_progressbar" e = Some VNone) /\
  forall own, normalize_dtype own (call_through normalize_virtual_bse base_normalize [] []) = Some own.
Proof.
  split; [|reflexivity]. intros o b H. repeat (destruct H as [H|H]; [injection H as <- <-; eexists; repeat split|]). destruct H.
Qed.
Print Assumptions C50_no_arguments.
