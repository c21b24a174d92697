(** C30, C31: saving to an existing file. *)
From Coq Require Import String List Arith ZArith Bool Lia.
From Verif Require Import Model.Binary Model.SaveFile Proofs.SaveFileProofs.
Import ListNotations.
Local Open Scope Z_scope.

(** Some question was answered by yes. *)
Definition says_yes (a : answers) : Prop := In "y"%string (yes_no a) \/ In "Y"%string (yes_no a).
(** save() is asked to add a scan to a kikuchipy h5ebsd file: by add_scan=True, or by the answer to the question. *)
Definition adds {Item Bytes} (w : writer Item Bytes) (overwrite add_scan : option bool) (a : answers) : Prop :=
  (exists n items, w = Kikuchipy n items) /\ overwrite <> Some true /\
  (add_scan = Some true \/ add_scan = None /\ fst (ask a) = true).
(** Numbers of the scans in a file. *)
Definition numbers_in {Item Bytes} (c : content Item Bytes) : list Z := match c with H5 _ s => map fst s | Other _ => [] end.

Section C.
Context {Item Bytes : Type} (hh : list Item -> bool).
Implicit Types (c : content Item Bytes) (w : writer Item Bytes).

(** When a scan is added: what the call does. *)
Lemma adds_plan : forall c n items overwrite add_scan a,
  adds (Kikuchipy n items : writer Item Bytes) overwrite add_scan a ->
  exists a', numbers a' = numbers a /\
  save_plan hh (Some c) (Kikuchipy n items) overwrite add_scan a =
  match h5_steps hh (Some c) (Some true) n (numbers a') items with None => Raise | Some s => Run s end.
Proof.
  intros c n items ov ad a (_ & O & A). unfold save_plan.
  assert (X : (true && negb match ov with Some true => true | _ => false end && true)%bool = true).
  { destruct ov as [[]|]; [contradiction O; reflexivity|reflexivity|reflexivity]. }
  rewrite X. destruct A as [->|[-> Y]].
  - cbn [fst]. exists a. auto.
  - destruct (ask a) as [b a'] eqn:E. cbn [fst] in Y. subst b. exists a'. split; [exact (ask_numbers _ _ _ E)|reflexivity].
Qed.

(** An existing file changes only with overwrite=True, with add_scan=True for an h5ebsd file, or if the user says yes. *)
Theorem C30_existing_file_kept : forall k c w overwrite add_scan a,
  file_after k (Some c) (save_plan hh (Some c) w overwrite add_scan a) <> Some c ->
  overwrite = Some true \/ add_scan = Some true /\ (exists n items, w = Kikuchipy n items) \/ says_yes a.
Proof.
  intros k c w ov ad a. unfold save_plan.
  destruct ov as [[]|].
  - auto.
  - intros H. right. destruct w as [n items|b]; cbn [andb negb] in H.
    + destruct ad as [[]|].
      * left. split; eauto.
      * cbn in H. now destruct H.
      * destruct (ask a) as [b a'] eqn:E. destruct b; [right; exact (ask_yes _ _ E)|]. cbn in H. now destruct H.
    + cbn in H. now destruct H.
  - intros H. right. destruct w as [n items|b]; cbn [andb negb] in H.
    + destruct ad as [[]|].
      * left. split; eauto.
      * right. destruct (ask a) as [b a'] eqn:E. destruct b; [exact (ask_yes _ _ E)|]. cbn in H. now destruct H.
      * right. destruct (ask a) as [b a'] eqn:E. destruct b; [exact (ask_yes _ _ E)|].
        destruct (ask a') as [b2 a2] eqn:E2. destruct b2; [exact (ask_rest _ _ _ E (ask_yes _ _ E2))|]. cbn in H. now destruct H.
    + right. destruct (ask a) as [b1 a'] eqn:E. destruct b1; [exact (ask_yes _ _ E)|]. cbn in H. now destruct H.
Qed.

(** With overwrite=False the file changes only by adding a scan. *)
Theorem C30_no_overwrite : forall k c w add_scan a,
  file_after k (Some c) (save_plan hh (Some c) w (Some false) add_scan a) <> Some c -> adds w (Some false) add_scan a.
Proof.
  intros k c w ad a. unfold save_plan, adds. destruct w as [n items|b]; cbn [andb negb]; intros H; [|cbn in H; now destruct H].
  split; [eauto|]. split; [discriminate|].
  destruct ad as [[]|]; [auto| |].
  - cbn in H. now destruct H.
  - right. split; [reflexivity|]. destruct (ask a) as [b a'] eqn:E. destruct b; [reflexivity|]. cbn in H. now destruct H.
Qed.

(** Adding a scan, interrupted anywhere: every scan in the file keeps its content, and nothing else than an h5ebsd
    file by kikuchipy is touched. *)
Theorem C31_adding_interrupted : forall k c w overwrite add_scan a, adds w overwrite add_scan a ->
  let f := file_after k (Some c) (save_plan hh (Some c) w overwrite add_scan a) in
  (forall n, In n (numbers_in c) -> scan_of n f = scan_of n (Some c)) /\
  (match c with H5 true _ => exists s, f = Some (H5 true s) | _ => f = Some c end).
Proof.
  intros k c w ov ad a A. pose proof A as ((m & items & ->) & _).
  destruct (adds_plan c m items ov ad a A) as (a' & _ & E). cbv zeta. rewrite E. unfold h5_steps.
  destruct c as [[] s|b]; [|now cbn [file_after]|now cbn [file_after]].
  destruct (negb _); [cbn [file_after]; eauto|].
  unfold bind. destruct (valid_number _ _ _) as [n0|]; [|cbn [file_after]; eauto].
  destruct (existsb (Z.eqb n0) (map fst s)) eqn:X; [cbn [file_after]; eauto|].
  assert (NI : ~ In n0 (map fst s)).
  { intros I. assert (T : existsb (Z.eqb n0) (map fst s) = true) by (apply existsb_exists; exists n0; split; [exact I|apply Z.eqb_refl]). congruence. }
  cbn [file_after].
  destruct (steps_touch Item Bytes n0 (firstn k (new_scan n0 :: map (add_item n0) items)) true s) as (s' & E' & L).
  { apply Forall_firstn, scan_steps_touch. }
  rewrite E'. split; [|eauto]. intros n I. cbn [scan_of]. apply L. intros ->. apply NI. exact I.
Qed.

(** The same without interruption, and the new scan is complete under a number not used before: the one given if it
    is free. *)
Theorem C30_adding : forall s n items overwrite add_scan a,
  adds (Kikuchipy n items : writer Item Bytes) overwrite add_scan a ->
  let f : option (content Item Bytes) := Some (H5 true s) in let f' := save hh f (Kikuchipy n items) overwrite add_scan a in
  (forall m, In m (map fst s) -> scan_of m f' = scan_of m f) /\
  (f' = f \/ exists m, ~ In m (map fst s) /\ scan_of m f' = Some items /\ (forall p, p <> m -> scan_of p f' = scan_of p f) /\
                       (~ In n (map fst s) -> m = n)).
Proof.
  intros s n items ov ad a A. destruct (adds_plan (H5 true s) n items ov ad a A) as (a' & _ & E).
  cbv zeta. unfold save. rewrite E. unfold h5_steps.
  destruct (negb _); [split; auto|].
  unfold bind. destruct (valid_number _ _ _) as [m|] eqn:V; [|split; auto].
  destruct (existsb (Z.eqb m) (map fst s)) eqn:X; [split; auto|].
  assert (NI : ~ In m (map fst s)).
  { intros I. assert (T : existsb (Z.eqb m) (map fst s) = true) by (apply existsb_exists; exists m; split; [exact I|apply Z.eqb_refl]). congruence. }
  destruct (scan_steps_lookup Item Bytes m items true s NI) as (s1 & E1 & L1).
  destruct (steps_touch Item Bytes m (new_scan m :: map (add_item m) items) true s (scan_steps_touch _ _ m items)) as (s2 & E2 & L2).
  rewrite E1 in *. injection E2 as <-.
  split.
  - intros p I. cbn [scan_of]. apply L2. intros ->. contradiction.
  - right. exists m. repeat split; auto.
    intros F. clear -V F. revert V. generalize (numbers a') as l. induction (map fst s) as [|i r IH]; intros l V; cbn [valid_number] in V.
    + now injection V as <-.
    + destruct (Z.eqb_spec i n) as [->|D]; [destruct F; now left|]. apply (IH ltac:(intros I; apply F; now right) l V).
Qed.

(** Adding with a free number to a file with a proper scan always succeeds. *)
Theorem C30_adding_succeeds : forall s n items overwrite add_scan a,
  adds (Kikuchipy n items : writer Item Bytes) overwrite add_scan a -> ~ In n (map fst s) ->
  (exists m l, In (m, l) s /\ hh l = true) ->
  scan_of n (save hh (Some (H5 true s)) (Kikuchipy n items : writer Item Bytes) overwrite add_scan a) = Some items.
Proof.
  intros s n items ov ad a A NI (m & l & I & HH). destruct (adds_plan (H5 true s) n items ov ad a A) as (a' & _ & E).
  unfold save. rewrite E. unfold h5_steps.
  assert (X : existsb (fun e : Z * list Item => hh (snd e)) s = true) by (apply existsb_exists; exists (m, l); auto).
  rewrite X. cbn [negb]. 
  assert (V : valid_number (map fst s) n (numbers a') = Some n).
  { clear -NI. induction (map fst s) as [|i r IH]; cbn [valid_number]; [reflexivity|].
    destruct (Z.eqb_spec i n) as [->|D]; [destruct NI; now left|]. apply IH. intros J; apply NI; now right. }
  rewrite V. cbn [bind].
  destruct (existsb (Z.eqb n) (map fst s)) eqn:Y.
  { apply existsb_exists in Y as (p & P & Q). apply Z.eqb_eq in Q. subst p. contradiction. }
  destruct (scan_steps_lookup Item Bytes n items true s NI) as (s1 & E1 & L1). rewrite E1. exact L1.
Qed.

(** Any history of calls that add scans or have overwrite=False, each one complete or interrupted anywhere, leaves all
    scans as they were. *)
Record call := Call { c_writer : writer Item Bytes; c_overwrite : option bool; c_add : option bool; c_answers : answers; c_stop : nat }.
Definition careful (x : call) : Prop := c_overwrite x = Some false \/ adds (c_writer x) (c_overwrite x) (c_add x) (c_answers x).
Definition after_call (f : option (content Item Bytes)) (x : call) : option (content Item Bytes) :=
  file_after (c_stop x) f (save_plan hh f (c_writer x) (c_overwrite x) (c_add x) (c_answers x)).
Theorem C30_history : forall calls s, Forall careful calls ->
  let f := fold_left after_call calls (Some (H5 true s)) in
  (exists s', f = Some (H5 true s')) /\
  forall n, In n (map fst s) -> scan_of n f = scan_of n (Some (H5 true s) : option (content Item Bytes)).
Proof.
  intros calls. induction calls as [|x calls IH]; intros s F; cbv zeta.
  - cbn [fold_left]. split; eauto.
  - apply Forall_cons_iff in F as [C F]. cbn [fold_left].
    assert (K : exists s1, after_call (Some (H5 true s)) x = Some (H5 true s1) /\
                forall n, In n (map fst s) -> scan_of n (Some (H5 true s1) : option (content Item Bytes)) = scan_of n (Some (H5 true s) : option (content Item Bytes))).
    { assert (AD : adds (c_writer x) (c_overwrite x) (c_add x) (c_answers x) ->
        exists s1, after_call (Some (H5 true s)) x = Some (H5 true s1) /\
        forall n, In n (map fst s) -> scan_of n (Some (H5 true s1) : option (content Item Bytes)) = scan_of n (Some (H5 true s) : option (content Item Bytes))).
      { intros A. destruct (C31_adding_interrupted (c_stop x) (H5 true s) _ _ _ _ A) as [L [s1 E]].
        exists s1. split; [exact E|]. intros n I. rewrite <- E. apply L. exact I. }
      destruct C as [O|A]; [|exact (AD A)].
      unfold after_call in *. rewrite O in *.
      destruct (c_writer x) as [m items|b] eqn:W.
      - destruct (c_add x) as [[]|] eqn:CA.
        + apply AD. split; [eauto|]. split; [discriminate|auto].
        + exists s. auto.
        + destruct (ask (c_answers x)) as [[] a'] eqn:Q.
          * apply AD. split; [eauto|]. split; [discriminate|]. right. rewrite Q. auto.
          * exists s. split; [|auto]. unfold save_plan. cbn [andb negb]. rewrite Q. reflexivity.
      - exists s. auto. }
    destruct K as (s1 & E & L). rewrite E.
    destruct (IH s1 F) as [S' L']. split; [exact S'|].
    intros n I. rewrite <- L by exact I. apply L'.
    assert (Y := lookup_in Item n s I). rewrite <- (L n I : option_map snd (find _ s1) = option_map snd (find _ s)) in Y.
    destruct (in_dec Z.eq_dec n (map fst s1)) as [J|J]; [exact J|]. exfalso. apply Y. now apply lookup_not_in.
Qed.

(** overwrite=True wins over add_scan=True: every other scan is lost. *)
Theorem C30_overwrite_with_add_scan_refuted : forall s n items a m,
  In m (map fst s) -> m <> n ->
  scan_of m (Some (H5 true s) : option (content Item Bytes)) <> None /\
  scan_of m (save hh (Some (H5 true s)) (Kikuchipy n items : writer Item Bytes) (Some true) (Some true) a) = None.
Proof.
  intros s n items a m I D. split; [now apply lookup_in|].
  unfold save, save_plan. cbn [andb negb h5_steps].
  change (apply_steps (Some (H5 true s)) (truncate :: sign_file :: new_scan n :: map (add_item n) items))
    with (apply_steps (Some (H5 true [] : content Item Bytes)) (new_scan n :: map (add_item n) items)).
  destruct (steps_touch Item Bytes n _ true [] (scan_steps_touch _ _ n items)) as (s1 & E1 & L1). rewrite E1. cbn [scan_of]. now rewrite L1.
Qed.

(** A file that does not exist is written whatever the options, and nothing is asked. *)
Theorem C30_new_file : forall n items (b : Bytes) overwrite add_scan a,
  (let f := save hh None (Kikuchipy n items : writer Item Bytes) overwrite add_scan a in
   scan_of n f = Some items /\ forall m, m <> n -> scan_of m f = None) /\
  save hh None (Nordif b : writer Item Bytes) overwrite add_scan a = Some (Other b).
Proof.
  intros n items b ov ad a. split; [|destruct ov as [[]|]; reflexivity]. cbv zeta.
  assert (E : save hh None (Kikuchipy n items : writer Item Bytes) ov ad a = save hh (Some (H5 false [])) (Kikuchipy n items) (Some true) ad a).
  { unfold save, save_plan. cbn [andb]. rewrite andb_false_r. destruct ov as [[]|]; reflexivity. }
  rewrite E. clear E. unfold save, save_plan. cbn [andb negb h5_steps].
  change (apply_steps (Some (H5 false [])) (truncate :: sign_file :: new_scan n :: map (add_item n) items))
    with (apply_steps (Some (H5 true [] : content Item Bytes)) (new_scan n :: map (add_item n) items)).
  destruct (scan_steps_lookup Item Bytes n items true [] ltac:(cbn; auto)) as (s1 & E1 & L1).
  destruct (steps_touch Item Bytes n _ true [] (scan_steps_touch _ _ n items)) as (s2 & E2 & L2).
  rewrite E1 in *. injection E2 as <-. cbn [scan_of]. split; [exact L1|]. intros m D. now rewrite L2.
Qed.

(** Overwriting: once complete, the file has the new scan only. *)
Theorem C31_overwriting_complete : forall c n items add_scan a,
  let f := save hh (Some c) (Kikuchipy n items) (Some true) add_scan a in
  scan_of n f = Some items /\ forall m, m <> n -> scan_of m f = None.
Proof.
  intros c n items ad a. cbv zeta. unfold save, save_plan. cbn [andb negb h5_steps].
  change (apply_steps (Some c) (truncate :: sign_file :: new_scan n :: map (add_item n) items))
    with (apply_steps (Some (H5 true [] : content Item Bytes)) (new_scan n :: map (add_item n) items)).
  destruct (scan_steps_lookup Item Bytes n items true [] ltac:(cbn; auto)) as (s1 & E1 & L1).
  destruct (steps_touch Item Bytes n _ true [] (scan_steps_touch _ _ n items)) as (s2 & E2 & L2).
  rewrite E1 in *. injection E2 as <-. cbn [scan_of]. split; [exact L1|]. intros m D. now rewrite L2.
Qed.
(** But interrupted before that, both the earlier scans and the new one are lost: the file is emptied first, and any
    later stop leaves an incomplete new scan and none of the others. *)
Theorem C31_overwriting_interrupted_refuted : forall c n items add_scan a m,
  let p := save_plan hh (Some c) (Kikuchipy n items) (Some true) add_scan a in
  scan_of m (file_after 1 (Some c) p) = None /\
  forall k, (1 <= k < 3 + length items)%nat ->
    (m <> n -> scan_of m (file_after k (Some c) p) = None) /\ scan_of n (file_after k (Some c) p) <> Some items.
Proof.
  intros c n items ad a m. cbv zeta. unfold save_plan. cbn [andb negb h5_steps]. cbn [file_after]. split; [reflexivity|].
  intros k [K1 K2]. destruct k as [|[|[|k]]]; [lia| | |].
  - cbn [firstn]. split; [reflexivity|discriminate].
  - cbn [firstn]. split; [reflexivity|discriminate].
  - assert (E : apply_steps (Some c) (firstn (S (S (S k))) (truncate :: sign_file :: new_scan n :: map (add_item n) items)) =
       apply_steps (Some (H5 true [] : content Item Bytes)) (new_scan n :: map (add_item n) (firstn k items))).
    { cbn [firstn]. rewrite firstn_map. reflexivity. }
    rewrite E.
    destruct (scan_steps_lookup Item Bytes n (firstn k items) true [] ltac:(cbn; auto)) as (s1 & E1 & L1).
    destruct (steps_touch Item Bytes n _ true [] (scan_steps_touch _ _ n (firstn k items))) as (s2 & E2 & L2).
    rewrite E1 in *. injection E2 as <-. cbn [scan_of]. split.
    + intros D. now rewrite L2.
    + rewrite L1. intros [= F]. apply (f_equal (@length _)) in F. rewrite firstn_length in F. lia.
Qed.

(** After an interrupted addition every earlier scan can be loaded by name as before. *)
Theorem C31_loaded_by_name : forall k c w overwrite add_scan a, adds w overwrite add_scan a ->
  forall n l, named_scan hh n (Some c) = Some l ->
    scan_of n (file_after k (Some c) (save_plan hh (Some c) w overwrite add_scan a)) = Some l.
Proof.
  intros k c w ov ad a A n l N. destruct (C31_adding_interrupted k c w ov ad a A) as [L S].
  rewrite L.
  - destruct c as [[] s|b]; try discriminate. cbn [named_scan] in N. destruct (existsb _ s); [exact N|discriminate].
  - destruct c as [[] s|b]; try discriminate. cbn [named_scan numbers_in] in *. destruct (existsb _ s); [|discriminate].
    destruct (in_dec Z.eq_dec n (map fst s)) as [J|J]; [exact J|].
    cbn [scan_of] in N. rewrite (lookup_not_in Item n s J) in N. discriminate.
Qed.
End C.

(** Loading without a name takes the scan listed first, which may be the incomplete one: scan 10 comes before scan 2. *)
Theorem C31_loaded_without_name_refuted : exists (c : content nat nat) k a,
  adds (Kikuchipy 10 [7%nat; 8%nat] : writer nat nat) None (Some true) a /\
  first_scan (fun l => (2 <=? length l)%nat) (Some c) = Some [1%nat; 2%nat] /\
  first_scan (fun l => (2 <=? length l)%nat)
    (file_after k (Some c) (save_plan (fun l => (2 <=? length l)%nat) (Some c) (Kikuchipy 10 [7%nat; 8%nat]) None (Some true) a)) = Some [].
Proof.
  exists (H5 true [(2, [1%nat; 2%nat])]), 1%nat, (Answers [] []). split; [|split; reflexivity].
  split; [eauto|]. split; [discriminate|auto].
Qed.

(** Concrete cases: a scan is added after the user says yes to the first question and gives an unused number; a refused
    number in use; and a no to both questions. *)
Definition two_scans : content nat nat := H5 true [(1, [1%nat; 2%nat]); (2, [3%nat; 4%nat])].
Example C30_case_add : save (fun l => (2 <=? length l)%nat) (Some two_scans) (Kikuchipy 1 [5%nat; 6%nat]) None None (Answers ["Y"%string] [None; Some 3])
  = Some (H5 true [(1, [1%nat; 2%nat]); (2, [3%nat; 4%nat]); (3, [5%nat; 6%nat])]) := eq_refl.
Example C30_case_adds : adds (Kikuchipy 1 [5%nat; 6%nat] : writer nat nat) None None (Answers ["Y"%string] [None; Some 3]).
Proof. split; [eauto|]. split; [discriminate|]. right. split; reflexivity. Qed.
Example C30_case_number_in_use : save_plan (fun l => (2 <=? length l)%nat) (Some two_scans) (Kikuchipy 2 [5%nat; 6%nat]) None (Some true) (Answers [] [Some 1]) = Raise := eq_refl.
Example C30_case_no : save (fun l => (2 <=? length l)%nat) (Some two_scans) (Kikuchipy 1 [5%nat]) None None (Answers ["x"; "n"; "N"]%string []) = Some two_scans := eq_refl.
Example C30_case_yes : save (fun l => (2 <=? length l)%nat) (Some two_scans) (Kikuchipy 1 [5%nat]) None None (Answers ["n"; "y"]%string []) = Some (H5 true [(1, [5%nat])]) := eq_refl.
Example C31_case : file_after 2 (Some two_scans) (save_plan (fun l => (2 <=? length l)%nat) (Some two_scans) (Kikuchipy 5 [5%nat; 6%nat]) (Some false) (Some true) (Answers [] []))
  = Some (H5 true [(1, [1%nat; 2%nat]); (2, [3%nat; 4%nat]); (5, [5%nat])]) := eq_refl.

Print Assumptions C30_history.
