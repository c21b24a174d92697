(** Threads which add to the pixels of a shared array (Model/KinematicalMaster.v, [run]). *)
From Coq Require Import List Arith ZArith Reals Bool Lra Lia Psatz Permutation.
From Verif Require Import Model.Detector Model.Lambert Model.KinematicalMaster Spec.KikuchiBandIntensity Proofs.KinematicalMasterProofs.
Import ListNotations.
Local Open Scope R_scope.

(** Still to be added to pixel k *)
Definition remaining (k : nat) (ts : list thread) : R := total (map (fun t => received k (code t)) ts).

Lemma replace_split {A} (l : list A) k a b : nth_error l k = Some a ->
  exists l1 l2, l = l1 ++ a :: l2 /\ replace k b l = l1 ++ b :: l2 /\ List.length l1 = k.
Proof.
  revert k. induction l as [|x l IH]; intros [|k] H; try discriminate.
  - injection H as ->. exists [], l. auto.
  - destruct (IH k H) as (l1 & l2 & -> & E & L). exists (x :: l1), l2. simpl. rewrite E, L. auto.
Qed.
Lemma remaining_app k a b : remaining k (a ++ b) = remaining k a + remaining k b.
Proof. unfold remaining. now rewrite map_app, total_app. Qed.
Lemma remaining_cons k t ts : remaining k (t :: ts) = received k (code t) + remaining k ts.
Proof. reflexivity. Qed.

(** Induction over schedules *)
Lemma run_invariant (I : memory -> list thread -> Prop) :
  (forall p l1 l2 t, I p (l1 ++ t :: l2) -> I (fst (step p t)) (l1 ++ snd (step p t) :: l2)) ->
  forall sched p ts, I p ts -> I (fst (run sched p ts)) (snd (run sched p ts)).
Proof.
  intros Hstep. induction sched as [|k sched IH]; intros p ts H; [exact H|]. cbn [run].
  destruct (nth_error ts k) as [t|] eqn:E; [|now apply IH].
  destruct (step p t) as [p' t'] eqn:S. apply IH.
  destruct (replace_split ts k t t' E) as (l1 & l2 & -> & -> & _). specialize (Hstep p l1 l2 t H). now rewrite S in Hstep.
Qed.

Definition positive (us : list update) : Prop := Forall (fun u => 0 <= snd u) us.
Lemma received_nonneg k us : positive us -> 0 <= received k us.
Proof. induction 1 as [|[j c] us H _ IH]; [unfold received; simpl; lra|]. rewrite received_cons. cbn [snd] in H. destruct (j =? k)%nat; lra. Qed.

(** *** Never more than the sum *)
Section AtMost.
Variable T : nat -> R.
Definition at_most (p : memory) (ts : list thread) : Prop :=
  (forall k, p k <= T k - remaining k ts) /\
  Forall (fun t => positive (code t) /\ forall j c rest x, code t = (j, c) :: rest -> register t = Some x -> x <= T j - remaining j ts) ts.
Lemma at_most_step p l1 l2 t : at_most p (l1 ++ t :: l2) -> at_most (fst (step p t)) (l1 ++ snd (step p t) :: l2).
Proof.
  intros [Hp Ht]. unfold step. destruct t as [code0 reg]. cbn [code register].
  destruct code0 as [|[j c] rest]; [now split|]. destruct reg as [x|].
  - cbn [fst snd].
    assert (Hx := Ht). apply Forall_app in Hx. destruct Hx as [_ Hx]. inversion Hx as [|? ? [Pos Reg] _]; subst.
    specialize (Reg j c rest x eq_refl eq_refl). cbn [code] in *. inversion Pos as [|? ? Hc Pos']; subst. cbn [snd] in Hc.
    assert (E : forall k, remaining k (l1 ++ Thread rest None :: l2) = remaining k (l1 ++ Thread ((j, c) :: rest) (Some x) :: l2) - if (j =? k)%nat then c else 0).
    { intros k. rewrite !remaining_app, !remaining_cons. cbn [code]. rewrite received_cons. destruct (j =? k)%nat; lra. }
    split.
    + intros k. rewrite E. unfold write. rewrite (Nat.eqb_sym k j). destruct (Nat.eqb_spec j k) as [<-|].
      * lra.
      * specialize (Hp k). lra.
    + apply Forall_app in Ht. destruct Ht as [H1 H2]. inversion H2 as [|? ? _ H3]; subst.
      assert (W : forall t, positive (code t) /\ (forall j0 c0 rest0 x0, code t = (j0, c0) :: rest0 -> register t = Some x0 -> x0 <= T j0 - remaining j0 (l1 ++ Thread ((j, c) :: rest) (Some x) :: l2)) ->
        positive (code t) /\ (forall j0 c0 rest0 x0, code t = (j0, c0) :: rest0 -> register t = Some x0 -> x0 <= T j0 - remaining j0 (l1 ++ Thread rest None :: l2))).
      { intros t [A B]. split; [exact A|]. intros j0 c0 rest0 x0 F G. specialize (B _ _ _ _ F G). rewrite E. destruct (j =? j0)%nat; lra. }
      apply Forall_app. split; [eapply Forall_impl; [exact W|exact H1]|]. constructor.
      * cbn [code register]. split; [exact Pos'|discriminate].
      * eapply Forall_impl; [exact W|exact H3].
  - cbn [fst snd].
    assert (E : forall k, remaining k (l1 ++ Thread ((j, c) :: rest) (Some (p j)) :: l2) = remaining k (l1 ++ Thread ((j, c) :: rest) None :: l2)).
    { intros k. now rewrite !remaining_app, !remaining_cons. }
    split; [intros k; rewrite E; apply Hp|].
    apply Forall_app in Ht. destruct Ht as [H1 H2]. inversion H2 as [|? ? H0 H3]; subst. destruct H0 as [Pos _].
    apply Forall_app. split; [eapply Forall_impl; [|exact H1]|constructor; [|eapply Forall_impl; [|exact H3]]].
    + intros t [A B]. split; [exact A|]. intros. rewrite E. eapply B; eauto.
    + cbn [code register] in *. split; [exact Pos|]. intros j0 c0 r0 x0 F G. injection F as <- <- <-. injection G as <-. rewrite E. apply Hp.
    + intros t [A B]. split; [exact A|]. intros. rewrite E. eapply B; eauto.
Qed.
End AtMost.

(** *** Never less than one of the additions *)
Section AtLeast.
Variables (k : nat) (m : R).
(** Every addition to pixel k is at least m. *)
Definition bounded (us : list update) : Prop := Forall (fun u => fst u = k -> m <= snd u) us.
Definition touches (us : list update) : bool := existsb (fun u => (fst u =? k)%nat) us.
Definition at_least (p : memory) (ts : list thread) : Prop :=
  (forall j, 0 <= p j) /\
  Forall (fun t => positive (code t) /\ bounded (code t) /\ forall x, register t = Some x -> 0 <= x) ts /\
  (m <= p k \/ existsb (fun t => touches (code t)) ts = true).
Lemma at_least_step p l1 l2 t : at_least p (l1 ++ t :: l2) -> at_least (fst (step p t)) (l1 ++ snd (step p t) :: l2).
Proof.
  intros (Hp & Ht & Hm). unfold step. destruct t as [code0 reg]. cbn [code register].
  destruct code0 as [|[j c] rest]; [now repeat split|].
  apply Forall_app in Ht. destruct Ht as [H1 H2]. inversion H2 as [|? ? (Pos & Bd & Reg) H3]; subst. cbn [code register] in *.
  destruct reg as [x|].
  - cbn [fst snd]. specialize (Reg x eq_refl). inversion Pos as [|? ? Hc Pos']; subst. inversion Bd as [|? ? Hb Bd']; subst. cbn [fst snd] in *.
    split; [|split].
    + intros i. unfold write. destruct (i =? j)%nat; [lra|apply Hp].
    + apply Forall_app. split; [exact H1|]. constructor; [|exact H3]. cbn [code register]. repeat split; auto. discriminate.
    + unfold write. destruct (Nat.eqb_spec k j) as [->|Hn]; [left; specialize (Hb eq_refl); lra|].
      destruct Hm as [Hm|Hm]; [now left|]. right. rewrite existsb_app in *. cbn [existsb code touches fst] in *.
      destruct (Nat.eqb_spec j k); [congruence|]. exact Hm.
  - cbn [fst snd]. split; [exact Hp|]. split.
    + apply Forall_app. split; [exact H1|]. constructor; [|exact H3]. cbn [code register]. repeat split; auto. intros x E. injection E as <-. apply Hp.
    + destruct Hm as [Hm|Hm]; [now left|]. right. rewrite existsb_app in *. exact Hm.
Qed.
End AtLeast.

(** *** Exactly the sum, where only one thread adds *)
Section Exclusive.
Variables (T : R) (k q : nat).
Definition exclusive (p : memory) (ts : list thread) : Prop :=
  p k + remaining k ts = T /\
  forall i t, nth_error ts i = Some t ->
    (i <> q -> touches k (code t) = false) /\
    (forall c rest x, code t = (k, c) :: rest -> register t = Some x -> x = p k).
Lemma exclusive_step p l1 l2 t : exclusive p (l1 ++ t :: l2) -> exclusive (fst (step p t)) (l1 ++ snd (step p t) :: l2).
Proof.
  intros [Hp Ht]. assert (Mid : forall (A : Type) (a : A) m1 m2, nth_error (m1 ++ a :: m2) (List.length m1) = Some a).
  { intros A a m1 m2. rewrite nth_error_app2, Nat.sub_diag by lia. reflexivity. }
  assert (Other : forall (a b : thread) i, i <> List.length l1 -> nth_error (l1 ++ a :: l2) i = nth_error (l1 ++ b :: l2) i).
  { intros a b i Hi. destruct (Nat.lt_ge_cases i (List.length l1)); [now rewrite !nth_error_app1 by assumption|].
    rewrite !nth_error_app2 by lia. destruct (i - List.length l1)%nat eqn:E; [lia|reflexivity]. }
  destruct (Ht _ _ (Mid thread t l1 l2)) as [Hq Hr]. unfold step. destruct t as [code0 reg]. cbn [code register] in *.
  destruct code0 as [|[j c] rest]; [now split|]. destruct reg as [x|]; cbn [fst snd].
  - split.
    + rewrite remaining_app, remaining_cons in *. cbn [code] in *. rewrite received_cons in Hp. unfold write. rewrite (Nat.eqb_sym k j).
      destruct (Nat.eqb_spec j k) as [->|]; [rewrite (Hr c rest x eq_refl eq_refl)|]; lra.
    + intros i t Hi. destruct (Nat.eq_dec i (List.length l1)) as [->|Hn].
      * rewrite Mid in Hi. injection Hi as <-. cbn [code register]. split; [|discriminate]. intros N. specialize (Hq N). unfold touches in *. cbn [existsb] in Hq.
        apply orb_false_iff in Hq. apply Hq.
      * rewrite (Other _ (Thread ((j, c) :: rest) (Some x)) i Hn) in Hi. destruct (Ht i t Hi) as [A B]. split; [exact A|].
        intros c' rest' x' E1 E2. unfold write. destruct (Nat.eqb_spec k j) as [<-|]; [|eapply B; eauto]. exfalso.
        assert (Hi' : i <> q -> False). { intros N. specialize (A N). rewrite E1 in A. unfold touches in A. cbn [existsb fst] in A. rewrite Nat.eqb_refl in A. discriminate. }
        assert (Hl : List.length l1 <> q -> False). { intros N. specialize (Hq N). unfold touches in Hq. cbn [existsb fst] in Hq. rewrite Nat.eqb_refl in Hq. discriminate. }
        assert (i = q) by lia. assert (List.length l1 = q) by lia. lia.
  - split.
    + rewrite remaining_app, remaining_cons in *. exact Hp.
    + intros i t Hi. destruct (Nat.eq_dec i (List.length l1)) as [->|Hn].
      * rewrite Mid in Hi. injection Hi as <-. cbn [code register]. split; [exact Hq|]. intros c' r' x' E1 E2. injection E1 as -> _ _. now injection E2.
      * rewrite (Other _ (Thread ((j, c) :: rest) None) i Hn) in Hi. exact (Ht i t Hi).
Qed.
End Exclusive.

(** *** Exactly the sum, where every addition is one action *)
Definition idle (t : thread) : Prop := register t = None.
Lemma replace_middle {A} (l1 l2 : list A) a b : replace (List.length l1) b (l1 ++ a :: l2) = l1 ++ b :: l2.
Proof. induction l1 as [|x l1 IH]; [reflexivity|]. simpl. now rewrite IH. Qed.
Lemma nth_middle {A} (l1 l2 : list A) a : nth_error (l1 ++ a :: l2) (List.length l1) = Some a.
Proof. induction l1 as [|x l1 IH]; [reflexivity|exact IH]. Qed.
Lemma run_pair s p l1 l2 us : let k := List.length l1 in
  run (k :: k :: s) p (l1 ++ Thread us None :: l2)
  = match us with
    | [] => run s p (l1 ++ Thread us None :: l2)
    | (j, c) :: rest => run s (write p j (p j + c)) (l1 ++ Thread rest None :: l2)
    end.
Proof.
  cbv zeta. cbn [run]. rewrite nth_middle. unfold step at 1. cbn [code register]. destruct us as [|[j c] rest].
  - rewrite replace_middle, nth_middle. unfold step. cbn [code]. now rewrite replace_middle.
  - rewrite replace_middle, nth_middle. unfold step. cbn [code register]. now rewrite replace_middle.
Qed.
Lemma run_pairs (T : nat -> R) s : forall p ts, Forall idle ts -> (forall k, p k + remaining k ts = T k) ->
  forall r, r = run (flat_map (fun k => [k; k]) s) p ts -> Forall idle (snd r) /\ forall k, fst r k + remaining k (snd r) = T k.
Proof.
  induction s as [|k s IH]; intros p ts Hi HT r Hr; [subst r; now split|]. cbn [flat_map app] in Hr.
  destruct (nth_error ts k) as [[us reg]|] eqn:E.
  - assert (reg = None) by (rewrite Forall_forall in Hi; apply (Hi (Thread us reg)); eapply nth_error_In; eauto). subst reg.
    destruct (replace_split ts k _ (Thread us None) E) as (l1 & l2 & -> & _ & <-). rewrite run_pair in Hr. destruct us as [|[j c] rest].
    + exact (IH _ _ Hi HT r Hr).
    + refine (IH _ _ _ _ r Hr).
      * apply Forall_app in Hi. destruct Hi as [A B]. inversion B; subst. apply Forall_app. split; [exact A|]. constructor; [reflexivity|assumption].
      * intros i. specialize (HT i). rewrite remaining_app, remaining_cons in *. cbn [code] in *. rewrite received_cons in HT. unfold write. rewrite (Nat.eqb_sym i j).
        destruct (Nat.eqb_spec j i) as [->|]; lra.
  - cbn [run] in Hr. rewrite E in Hr. exact (IH _ _ Hi HT r Hr).
Qed.
