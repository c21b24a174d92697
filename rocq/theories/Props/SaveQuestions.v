(** C30: which answers to the questions of save() count as permission. *)
From Coq Require Import String List Bool Lia.
From Verif Require Import Model.SaveFile.
Import ListNotations.
Local Open Scope string_scope.
Local Open Scope list_scope.

(** ** Specification *)

(** An answer is understood as yes or no: y and n, as the first answer also Y and N. *)
Definition yes (earlier : list string) (s : string) : Prop := s = "y" \/ earlier = [] /\ s = "Y".
Definition no (earlier : list string) (s : string) : Prop := s = "n" \/ earlier = [] /\ s = "N".
(** The first answer understood is the one after [earlier]. *)
Definition first_understood (l earlier : list string) (s : string) (later : list string) : Prop :=
  l = earlier ++ s :: later /\
  forall before x after, earlier = before ++ x :: after -> ~ yes before x /\ ~ no before x.

(** ** Theorems *)

Lemma again_skips earlier l : (forall x, In x earlier -> x <> "y" /\ x <> "n") -> ask_again (earlier ++ l) = ask_again l.
Proof.
  induction earlier as [|x e IH]; intros H; [reflexivity|]. cbn [app ask_again]. destruct (H x (or_introl eq_refl)) as [A B].
  apply String.eqb_neq in A, B. rewrite A, B. apply IH. intros y Hy. apply H. now right.
Qed.
Lemma ask_understood a earlier s later : first_understood (yes_no a) earlier s later -> yes earlier s \/ no earlier s ->
  (fst (ask a) = true <-> yes earlier s) /\ yes_no (snd (ask a)) = later /\ numbers (snd (ask a)) = numbers a.
Proof.
  intros [E U] Hs. unfold ask. rewrite E. destruct earlier as [|x e]; cbn [app].
  - destruct Hs as [[->|[_ ->]]|[->|[_ ->]]]; cbn; (split; [split; [|reflexivity || (intros [C|[_ C]]; discriminate C)]|split; reflexivity]);
      intros H; try discriminate H; [now left|right; split; reflexivity].
  - destruct (U [] x e eq_refl) as [Nx Mx]. unfold yes in Nx. unfold no in Mx.
    assert (X : x <> "y" /\ x <> "Y" /\ x <> "n" /\ x <> "N") by (repeat split; intros ->; (apply Nx; tauto) || (apply Mx; tauto)).
    destruct X as (X1 & X2 & X3 & X4). pose proof X1 as Y1. pose proof X3 as Y3. apply String.eqb_neq in X1, X2, X3, X4. rewrite X2, X4.
    assert (K : ask_again (x :: e ++ s :: later) = ask_again (s :: later)).
    { apply (again_skips (x :: e)). intros y Hy. apply in_split in Hy as (b & c & Hy). destruct (U b y c Hy) as [A B].
      split; intros ->; [apply A; now left|apply B; now left]. }
    rewrite K. destruct Hs as [[->|[C _]]|[->|[C _]]]; try discriminate C; cbn.
    + split; [split; [now left|reflexivity]|split; reflexivity].
    + split; [split; [discriminate|intros [C|[C _]]; discriminate C]|split; reflexivity].
Qed.

(** The first answer understood decides, and the answers after it are left for the next question. *)
Theorem C30_first_answer_decides a earlier s later : first_understood (yes_no a) earlier s later ->
  (yes earlier s -> fst (ask a) = true) /\ (no earlier s -> fst (ask a) = false) /\
  (yes earlier s \/ no earlier s -> yes_no (snd (ask a)) = later /\ numbers (snd (ask a)) = numbers a).
Proof.
  intros F. split; [intros H|split; intros H].
  - now apply (ask_understood a earlier s later F (or_introl H)).
  - destruct (ask_understood a earlier s later F (or_intror H)) as [I _]. destruct (fst (ask a)); [|reflexivity].
    destruct (proj1 I eq_refl) as [->|[-> ->]]; destruct H as [H|[H1 H]]; discriminate.
  - exact (proj2 (ask_understood a earlier s later F H)).
Qed.
Print Assumptions C30_first_answer_decides.

(** Without an answer understood there is no permission. *)
Theorem C30_no_answer a : (forall before x after, yes_no a = before ++ x :: after -> ~ yes before x /\ ~ no before x) -> fst (ask a) = false.
Proof.
  intros U. unfold ask. destruct (yes_no a) as [|x e] eqn:E; [reflexivity|].
  destruct (U [] x e eq_refl) as [Nx Mx]. unfold yes in Nx. unfold no in Mx.
  assert (X : x <> "Y" /\ x <> "N") by (split; intros ->; (apply Nx; tauto) || (apply Mx; tauto)).
  destruct X as (X2 & X4). apply String.eqb_neq in X2, X4. rewrite X2, X4.
  assert (K : ask_again ((x :: e) ++ []) = ask_again []).
  { apply again_skips. intros y Hy. apply in_split in Hy as (b & c & Hy). destruct (U b y c Hy) as [A B].
    split; intros ->; [apply A; now left|apply B; now left]. }
  rewrite app_nil_r in K. rewrite K. reflexivity.
Qed.
Print Assumptions C30_no_answer.

(** So a capital Y or N, an answer to the first question, is not understood once it is asked again: it changes nothing. *)
Theorem C30_capital_answer_refuted first rest numbers : first <> "y" -> first <> "Y" -> first <> "n" -> first <> "N" ->
  ask (Answers (first :: "Y" :: rest) numbers) = ask (Answers (first :: rest) numbers) /\
  ask (Answers (first :: "N" :: rest) numbers) = ask (Answers (first :: rest) numbers).
Proof.
  intros A B C D. unfold ask. cbn [yes_no SaveFile.numbers]. apply String.eqb_neq in A, B, C, D. rewrite B, D.
  cbn [ask_again]. rewrite A, C. split; reflexivity.
Qed.
Print Assumptions C30_capital_answer_refuted.

(** ** Cases *)

Example C30_case_answers : first_understood ["yes"; "Y"; "y"; "n"] ["yes"; "Y"] "y" ["n"] /\ yes ["yes"; "Y"] "y" /\
  fst (ask (Answers ["yes"; "Y"; "n"] [])) = false.
Proof.
  split; [split; [reflexivity|]|split; [now left|reflexivity]].
  intros b x c E. destruct b as [|b0 [|b1 b]]; cbn in E.
  - injection E as <- _. split; intros [H|[_ H]]; discriminate.
  - injection E as <- <- _. split; intros [H|[H _]]; discriminate.
  - injection E as _ _ E. destruct b; discriminate E.
Qed.
