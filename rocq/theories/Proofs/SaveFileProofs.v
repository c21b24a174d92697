From Coq Require Import String List Arith ZArith Bool Lia.
From Verif Require Import Model.Binary Model.SaveFile.
Import ListNotations.
Local Open Scope Z_scope.

Section P.
Variables (Item Bytes : Type).
Notation content := (content Item Bytes).
Notation lookup n s := (option_map snd (find (fun e : Z * list Item => fst e =? n) s)).

Lemma lookup_in : forall n s, In n (map fst s) -> lookup n s <> None.
Proof.
  induction s as [|[m l] s IH]; cbn [map fst In find]; intros H; [contradiction|].
  destruct (Z.eqb_spec m n); [discriminate|]. apply IH; intuition.
Qed.
Lemma lookup_not_in : forall n s, ~ In n (map fst s) -> lookup n s = None.
Proof.
  induction s as [|[m l] s IH]; cbn [map fst In find]; intros H; [reflexivity|].
  destruct (Z.eqb_spec m n); [exfalso; apply H; auto|]. apply IH; intuition.
Qed.
Lemma insert_other : forall n m s, n <> m -> lookup n (insert_scan m s) = lookup n s.
Proof.
  intros n m s D. induction s as [|e s IH]; cbn [insert_scan find].
  - cbn [fst]. destruct (Z.eqb_spec m n); [congruence|reflexivity].
  - destruct (listed_before m (fst e)).
    + cbn [find fst]. destruct (Z.eqb_spec m n); [congruence|reflexivity].
    + cbn [find]. destruct (fst e =? n); [reflexivity|exact IH].
Qed.
Lemma insert_same : forall m s, ~ In m (map fst s) -> lookup m (insert_scan m s) = Some [].
Proof.
  induction s as [|e s IH]; cbn [insert_scan find map In]; intros H.
  - cbn [fst]. now rewrite Z.eqb_refl.
  - destruct (listed_before m (fst e)).
    + cbn [find fst]. now rewrite Z.eqb_refl.
    + cbn [find]. destruct (Z.eqb_spec (fst e) m); [exfalso; apply H; auto|]. apply IH; intuition.
Qed.
Lemma item_other : forall n m i s, n <> m ->
  lookup n (map (fun e : Z * list Item => if fst e =? m then (fst e, snd e ++ [i]) else e) s) = lookup n s.
Proof.
  intros n m i s D. induction s as [|e s IH]; cbn [map find]; [reflexivity|].
  destruct (Z.eqb_spec (fst e) m) as [E|E].
  - cbn [fst]. rewrite E. destruct (Z.eqb_spec m n); [congruence|exact IH].
  - destruct (fst e =? n); [reflexivity|exact IH].
Qed.
Lemma item_same : forall m i s l, lookup m s = Some l ->
  lookup m (map (fun e : Z * list Item => if fst e =? m then (fst e, snd e ++ [i]) else e) s) = Some (l ++ [i]).
Proof.
  intros m i s l. induction s as [|e s IH]; cbn [map find]; [discriminate|].
  destruct (Z.eqb_spec (fst e) m) as [E|E].
  - cbn [fst option_map snd]. rewrite E, Z.eqb_refl. cbn. intros [= <-]. reflexivity.
  - rewrite (proj2 (Z.eqb_neq _ _) E). exact IH.
Qed.

(** Steps that only touch scan m. *)
Definition touches_only (m : Z) (t : step Item Bytes) : Prop :=
  forall k s, exists s', t (H5 k s) = H5 k s' /\ (forall n, n <> m -> lookup n s' = lookup n s).
Lemma new_scan_touches : forall m, touches_only m (new_scan m).
Proof. intros m k s. exists (insert_scan m s). split; [reflexivity|]. intros; now apply insert_other. Qed.
Lemma add_item_touches : forall m i, touches_only m (add_item m i).
Proof. intros m i k s. eexists. split; [reflexivity|]. intros; now apply item_other. Qed.
Lemma steps_touch : forall m st k s, Forall (touches_only m) st ->
  exists s', apply_steps (Some (H5 k s)) st = Some (H5 k s') /\ forall n, n <> m -> lookup n s' = lookup n s.
Proof.
  intros m st. induction st as [|t st IH]; intros k s F.
  - exists s. auto.
  - apply Forall_cons_iff in F as [T F]. destruct (T k s) as (s1 & E1 & L1).
    destruct (IH k s1 F) as (s2 & E2 & L2). exists s2. split.
    + unfold apply_steps in *. cbn [fold_left]. rewrite E1. exact E2.
    + intros n D. now rewrite L2, L1.
Qed.
Lemma scan_steps_touch : forall m items, Forall (touches_only m) (new_scan m :: map (add_item m) items).
Proof.
  intros. constructor; [apply new_scan_touches|]. apply Forall_forall. intros t H.
  apply in_map_iff in H as (i & <- & _). apply add_item_touches.
Qed.
Lemma Forall_firstn : forall {A} (P : A -> Prop) k l, Forall P l -> Forall P (firstn k l).
Proof. induction k; intros l F; cbn; [constructor|]. destruct F; constructor; auto. Qed.

Lemma items_lookup : forall m items k s l, lookup m s = Some l ->
  exists s', apply_steps (Some (H5 k s : content)) (map (add_item m) items) = Some (H5 k s') /\ lookup m s' = Some (l ++ items).
Proof.
  induction items as [|i items IH]; intros k s l H.
  - exists s. split; [reflexivity|]. now rewrite app_nil_r.
  - destruct (IH k _ _ (item_same m i s l H)) as (s' & E & L). exists s'. split.
    + unfold apply_steps in *. cbn [map fold_left]. exact E.
    + rewrite L, <- app_assoc. reflexivity.
Qed.
Lemma scan_steps_lookup : forall m items k s, ~ In m (map fst s) ->
  exists s', apply_steps (Some (H5 k s : content)) (new_scan m :: map (add_item m) items) = Some (H5 k s') /\ lookup m s' = Some items.
Proof.
  intros m items k s NI.
  destruct (items_lookup m items k _ [] (insert_same m s NI)) as (s' & E & L). exists s'. split; auto.
Qed.

Lemma ask_again_yes : forall l r, ask_again l = (true, r) -> In "y"%string l.
Proof.
  induction l as [|x l IH]; cbn [ask_again In]; intros r H; [discriminate|].
  destruct (String.eqb_spec x "y"); [auto|]. destruct (String.eqb x "n"); [discriminate|]. right. now apply (IH r).
Qed.
Lemma ask_again_rest : forall l b r s, ask_again l = (b, r) -> In s r -> In s l.
Proof.
  induction l as [|x l IH]; cbn [ask_again In]; intros b r s H I; [injection H as _ <-; contradiction|].
  destruct (String.eqb x "y"); [injection H as _ <-; auto|]. destruct (String.eqb x "n"); [injection H as _ <-; auto|].
  right. now apply (IH b r).
Qed.
Definition yes_in (a : answers) : Prop := In "y"%string (yes_no a) \/ In "Y"%string (yes_no a).
Lemma ask_yes : forall a a', ask a = (true, a') -> yes_in a.
Proof.
  intros [l ns] a'. unfold ask, yes_in. cbn [yes_no]. destruct l as [|s l]; [discriminate|].
  destruct (String.eqb_spec s "Y") as [->|N1]; [right; left; reflexivity|].
  destruct (String.eqb_spec s "N") as [->|N2].
  - cbn [ask_again]. discriminate.
  - destruct (ask_again (s :: l)) as [b r] eqn:E. intros [= -> <-]. apply ask_again_yes in E. auto.
Qed.
Lemma ask_rest : forall a b a', ask a = (b, a') -> yes_in a' -> yes_in a.
Proof.
  intros [l ns] b a'. unfold ask, yes_in. cbn [yes_no]. destruct l as [|s l]; [intros [= <- <-]; auto|].
  set (s' := if String.eqb s "Y" then _ else _).
  destruct (ask_again (s' :: l)) as [b' r] eqn:E. intros [= <- <-]. cbn [yes_no].
  assert (R : forall x, In x r -> In x l).
  { intros x I. cbn [ask_again] in E. destruct (String.eqb s' "y"); [injection E as _ <-; auto|].
    destruct (String.eqb s' "n"); [injection E as _ <-; auto|]. now apply (ask_again_rest l b' r). }
  intros [H|H]; apply R in H; cbn [In]; auto.
Qed.
Lemma ask_numbers : forall a b a', ask a = (b, a') -> numbers a' = numbers a.
Proof.
  intros [l ns] b a'. unfold ask. cbn [yes_no numbers]. destruct l as [|s l]; [intros [= <- <-]; auto|].
  set (s' := if String.eqb s "Y" then _ else _). destruct (ask_again (s' :: l)). now intros [= <- <-].
Qed.
End P.
