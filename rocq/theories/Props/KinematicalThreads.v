(** Threads which share the pattern of get_pattern (property C69). *)
From Coq Require Import List Arith ZArith Reals Bool Lra Lia Psatz Permutation.
From Verif Require Import Model.Detector Model.Lambert Model.KinematicalMaster Spec.Euler Spec.KikuchiBandIntensity
  Proofs.KinematicalMasterProofs Proofs.ThreadsProofs.
Import ListNotations.
Local Open Scope R_scope.

(** Shares of the threads: every reflector in one of them, once *)
Definition distributed (shares : list (list nat)) (n_reflectors : nat) : Prop := Permutation (concat shares) (seq 0 n_reflectors).

Section Threads.
Variables (intensity : list R) (hemi refl : list vec) (theta : list R).
Let n := List.length hemi.
Let m := List.length refl.
Let serial := get_pattern intensity hemi refl theta.
Let parallel := get_pattern_parallel intensity hemi refl theta.
(** What reflector i adds to pixel j *)
Let adds (i j : nat) := addition (nth i intensity 0) (nth i theta 0) (nth i refl origin) (nth j hemi origin).
Let updates := updates_of intensity hemi refl theta.
Let start (shares : list (list nat)) := map (fun is => Thread (flat_map updates is) None) shares.

Lemma parallel_inv shares schedule pattern : parallel shares schedule = Some pattern ->
  exists p ts, run schedule (fun _ => 0) (start shares) = (p, ts) /\ Forall (fun t => code t = []) ts /\ pattern = map p (seq 0 n).
Proof using.
  unfold parallel, get_pattern_parallel. fold updates. fold (start shares). destruct (run _ _ _) as [p ts]. intros H.
  exists p, ts. split; [reflexivity|]. destruct (forallb _ ts) eqn:F; [|discriminate]. injection H as <-. split; [|reflexivity].
  rewrite forallb_forall in F. apply Forall_forall. intros t Ht. specialize (F t Ht). now destruct (code t).
Qed.
Lemma parallel_eq shares schedule p ts : run schedule (fun _ => 0) (start shares) = (p, ts) -> Forall (fun t => code t = []) ts ->
  parallel shares schedule = Some (map p (seq 0 n)).
Proof using.
  intros E F. unfold parallel, get_pattern_parallel. fold updates. fold (start shares). rewrite E.
  replace (forallb _ ts) with true; [reflexivity|]. symmetry. apply forallb_forall. intros t Ht. rewrite Forall_forall in F. now rewrite (F t Ht).
Qed.
Lemma remaining_start shares j : (j < n)%nat -> distributed shares m -> remaining j (start shares) = nth j serial 0.
Proof using.
  intros Hj Hd. assert (E : nth_error serial j = Some (total (map (fun i => share intensity hemi refl theta i j) (seq 0 m)))) by now apply get_pattern_nth.
  rewrite (nth_error_nth _ _ 0 E). rewrite <- (total_permutation _ _ (Permutation_map _ Hd)). clear - Hj.
  unfold remaining, start. rewrite map_map. cbn [code]. induction shares as [|is shares IH]; [reflexivity|].
  cbn [map concat]. rewrite map_app, total_app, <- IH. cbn [total fold_right]. f_equal. now apply received_shares.
Qed.
Lemma done_remaining ts k : Forall (fun t => code t = []) ts -> remaining k ts = 0.
Proof using. induction 1 as [|t ts H _ IH]; [reflexivity|]. rewrite remaining_cons, IH, H. unfold received. simpl. lra. Qed.
Lemma nth_pattern p j : (j < n)%nat -> nth j (map p (seq 0 n)) 0 = p j.
Proof using.
  intros Hj. apply nth_error_nth. rewrite nth_error_map, (nth_error_nth' _ 0%nat) by now rewrite seq_length. now rewrite seq_nth.
Qed.
Lemma in_updates i j c : In (j, c) (updates i) -> (j < n)%nat /\ adds i j = Some c.
Proof using.
  unfold updates, updates_of. intros H. apply in_flat_map in H. destruct H as (j' & Hj & H). apply in_seq in Hj.
  destruct (addition _ _ _ _) as [c'|] eqn:E; [|easy]. destruct H as [H|[]]. injection H as <- <-. split; [lia|exact E].
Qed.
Lemma updates_in i j c : (j < n)%nat -> adds i j = Some c -> In (j, c) (updates i).
Proof using.
  intros Hj E. unfold updates, updates_of. apply in_flat_map. exists j. split; [apply in_seq; lia|]. unfold adds in E. rewrite E. now left.
Qed.

Hypothesis nonnegative : Forall (fun x => 0 <= x) intensity.
Lemma adds_nonneg i j c : adds i j = Some c -> 0 <= c.
Proof using nonnegative.
  assert (0 <= nth i intensity 0). { destruct (Nat.lt_ge_cases i (List.length intensity)); [|rewrite nth_overflow by lia; lra]. rewrite Forall_forall in nonnegative. apply nonnegative, nth_In. lia. }
  unfold adds, addition. cbv zeta. repeat destruct (Rle_dec _ _); intros E; try discriminate; injection E as <-; lra.
Qed.
Lemma positive_updates is : positive (flat_map updates is).
Proof using nonnegative.
  apply Forall_forall. intros [j c] H. apply in_flat_map in H. destruct H as (i & _ & H). apply in_updates in H. cbn [snd]. eapply adds_nonneg, (proj2 H).
Qed.

(** ** C69 *)

(** Whatever the distribution of reflectors among threads and the order of the threads' actions, no pixel
    gets more than the sum of the bands it lies in, ... *)
Theorem C69_never_brighter shares schedule pattern j : distributed shares m -> parallel shares schedule = Some pattern -> (j < n)%nat ->
  nth j pattern 0 <= nth j serial 0.
Proof using nonnegative.
  intros Hd H Hj. destruct (parallel_inv _ _ _ H) as (p & ts & E & F & ->). rewrite nth_pattern by exact Hj.
  pose proof (run_invariant (at_most (fun k => remaining k (start shares))) (at_most_step _) schedule (fun _ => 0) (start shares)) as I.
  rewrite E in I. cbn [fst snd] in I. destruct I as [I _].
  - split; [intros k; lra|]. apply Forall_forall. intros t Ht. unfold start in Ht. apply in_map_iff in Ht. destruct Ht as (is & <- & _). cbn [code register]. split; [apply positive_updates|discriminate].
  - specialize (I j). rewrite (done_remaining ts j F), (remaining_start shares j Hj Hd) in I. lra.
Qed.

(** ... a pixel in no band is 0, and a pixel in some band gets at least one of the additions. *)
Theorem C69_one_addition_is_kept shares schedule pattern j : distributed shares m -> parallel shares schedule = Some pattern -> (j < n)%nat ->
  ((forall i, (i < m)%nat -> adds i j = None) -> nth j pattern 0 = 0) /\
  ((exists i, (i < m)%nat /\ adds i j <> None) -> exists i c, (i < m)%nat /\ adds i j = Some c /\ c <= nth j pattern 0).
Proof using nonnegative.
  intros Hd H Hj. destruct (parallel_inv _ _ _ H) as (p & ts & E & F & ->). rewrite nth_pattern by exact Hj.
  (* lower bounds *)
  assert (L : forall b, (forall i c, (i < m)%nat -> adds i j = Some c -> b <= c) -> 0 <= p j /\ (b <= p j \/ forall i, (i < m)%nat -> adds i j = None)).
  { intros b Hb. destruct (existsb (fun t => touches j (code t)) (start shares)) eqn:Tch.
    - pose proof (run_invariant (at_least j b) (at_least_step j b) schedule (fun _ => 0) (start shares)) as I.
      rewrite E in I. cbn [fst snd] in I. destruct I as (I1 & _ & I2).
      + split; [intros; lra|]. split; [|now right]. apply Forall_forall. intros t Ht. unfold start in Ht. apply in_map_iff in Ht. destruct Ht as (is & <- & His). cbn [code register].
        split; [apply positive_updates|]. split; [|discriminate]. apply Forall_forall. intros [j' c] Hu Hj'. cbn [fst snd] in *. subst j'. apply in_flat_map in Hu. destruct Hu as (i & Hi & Hu).
        apply in_updates in Hu. apply (Hb i c); [|apply Hu]. apply (Permutation_in i) in Hd; [apply in_seq in Hd; lia|]. apply in_concat. eauto.
      + split; [apply I1|]. destruct I2 as [I2|I2]; [now left|]. exfalso. apply existsb_exists in I2. destruct I2 as (t & Ht & I2). rewrite Forall_forall in F. rewrite (F t Ht) in I2. discriminate.
    - assert (N : forall i, (i < m)%nat -> adds i j = None).
      { intros i Hi. destruct (adds i j) as [c|] eqn:A; [|reflexivity]. exfalso. apply Bool.not_true_iff_false in Tch. apply Tch.
        assert (Hin : In i (concat shares)) by (apply (Permutation_in i (Permutation_sym Hd)), in_seq; lia). apply in_concat in Hin. destruct Hin as (is & His & Hin).
        apply existsb_exists. exists (Thread (flat_map updates is) None). split; [unfold start; apply in_map_iff; eauto|]. cbn [code]. apply existsb_exists. exists (j, c).
        split; [|apply Nat.eqb_refl]. apply in_flat_map. exists i. split; [exact Hin|]. now apply updates_in. }
      split; [|now right].
      pose proof (run_invariant (at_least j 0) (at_least_step j 0) schedule (fun _ => 0) (start shares)) as I.
      rewrite E in I. cbn [fst snd] in I. destruct I as (I1 & _ & _); [|apply I1]. split; [intros; lra|]. split; [|left; lra].
      apply Forall_forall. intros t Ht. unfold start in Ht. apply in_map_iff in Ht. destruct Ht as (is & <- & His). cbn [code register].
      split; [apply positive_updates|]. split; [|discriminate]. eapply Forall_impl; [|apply positive_updates]. auto. }
  split.
  - intros N. assert (0 <= p j) by (apply (L 0); intros i c Hi A; rewrite N in A by exact Hi; discriminate).
    pose proof (C69_never_brighter shares schedule _ j Hd H Hj) as U. rewrite nth_pattern in U by exact Hj.
    assert (Z : nth j serial 0 = 0); [|lra].
    assert (Es : nth_error serial j = Some (total (map (fun i => share intensity hemi refl theta i j) (seq 0 m)))) by now apply get_pattern_nth.
    rewrite (nth_error_nth _ _ 0 Es). transitivity (total (map (fun _ : nat => 0) (seq 0 m))).
    + apply total_ext. intros i Hi. apply in_seq in Hi. unfold share. fold (adds i j). rewrite N by lia. reflexivity.
    + generalize (seq 0 m). intros l. induction l as [|x l IH]; [reflexivity|]. simpl. simpl in IH. rewrite IH. lra.
  - intros (i0 & Hi0 & A0).
    (* the smallest addition *)
    assert (M : forall k, (exists i, (i < k)%nat /\ adds i j <> None) -> exists i c, (i < k)%nat /\ adds i j = Some c /\ forall i' c', (i' < k)%nat -> adds i' j = Some c' -> c <= c').
    { clear. induction k as [|k IH]; intros (i & Hi & A); [lia|].
      assert (Old : (exists i, (i < k)%nat /\ adds i j <> None) \/ forall i, (i < k)%nat -> adds i j = None).
      { clear. induction k as [|k [(i & Hi & A)|IH]]; [right; lia|left; exists i; split; [lia|exact A]|].
        destruct (adds k j) as [c|] eqn:E; [left; exists k; split; [lia|congruence]|]. right. intros i Hi. destruct (Nat.eq_dec i k) as [->|]; [exact E|apply IH; lia]. }
      destruct Old as [Old|Old].
      - destruct (IH Old) as (i1 & c1 & H1 & E1 & B1). destruct (adds k j) as [c|] eqn:E.
        + destruct (Rle_or_lt c1 c).
          * exists i1, c1. split; [lia|]. split; [exact E1|]. intros i' c' Hi' A'. destruct (Nat.eq_dec i' k) as [->|]; [rewrite E in A'; injection A' as <-; assumption|]. apply (B1 i'); [lia|exact A'].
          * exists k, c. split; [lia|]. split; [exact E|]. intros i' c' Hi' A'. destruct (Nat.eq_dec i' k) as [->|]; [rewrite E in A'; injection A' as <-; lra|]. assert (c1 <= c') by (apply (B1 i'); [lia|exact A']). lra.
        + exists i1, c1. split; [lia|]. split; [exact E1|]. intros i' c' Hi' A'. destruct (Nat.eq_dec i' k) as [->|]; [congruence|]. apply (B1 i'); [lia|exact A'].
      - assert (i = k) by (destruct (Nat.eq_dec i k); [assumption|elim A; apply Old; lia]). subst i. destruct (adds k j) as [c|] eqn:E; [|easy]. exists k, c. split; [lia|]. split; [exact E|].
        intros i' c' Hi' A'. destruct (Nat.eq_dec i' k) as [->|]; [rewrite E in A'; injection A' as <-; lra|]. rewrite Old in A' by lia. discriminate. }
    destruct (M m) as (i & c & Hi & A & B); [eauto|]. exists i, c. split; [exact Hi|]. split; [exact A|].
    destruct (L c) as [_ [G|G]]; [intros i' c' Hi' A'; apply (B i'); assumption|exact G|]. rewrite G in A by exact Hi. discriminate.
Qed.

(** A pixel all of whose bands are in the share of one thread is right. *)
Theorem C69_right_where_one_thread_adds shares schedule pattern j q : distributed shares m -> parallel shares schedule = Some pattern -> (j < n)%nat ->
  (forall k is i, nth_error shares k = Some is -> In i is -> k <> q -> adds i j = None) ->
  nth j pattern 0 = nth j serial 0.
Proof using.
  clear nonnegative. intros Hd H Hj Hq. destruct (parallel_inv _ _ _ H) as (p & ts & E & F & ->). rewrite nth_pattern by exact Hj.
  pose proof (run_invariant (exclusive (remaining j (start shares)) j q) (exclusive_step _ j q) schedule (fun _ => 0) (start shares)) as I.
  rewrite E in I. cbn [fst snd] in I. destruct I as [I _].
  - split; [lra|]. intros i t Ht. unfold start in Ht. rewrite nth_error_map in Ht. destruct (nth_error shares i) as [is|] eqn:Es; [|discriminate]. injection Ht as <-. cbn [code register].
    split; [|discriminate]. intros Hi. apply Bool.not_true_iff_false. intros Tch. apply existsb_exists in Tch. destruct Tch as ([j' c] & Hu & Hj'). cbn [fst] in Hj'. apply Nat.eqb_eq in Hj'. subst j'.
    apply in_flat_map in Hu. destruct Hu as (i' & Hi' & Hu). apply in_updates in Hu. rewrite (Hq i is i' Es Hi' Hi) in Hu. destruct Hu. discriminate.
  - rewrite (done_remaining ts j F), (remaining_start shares j Hj Hd) in I. lra.
Qed.
(** In particular, one thread gives the sums. *)
Theorem C69_right_with_one_thread schedule pattern is : distributed [is] m -> parallel [is] schedule = Some pattern -> pattern = serial.
Proof using.
  clear nonnegative. intros Hd H. apply (nth_ext _ _ 0 0).
  - destruct (parallel_inv _ _ _ H) as (p & ts & E & F & ->). unfold serial. now rewrite get_pattern_length, map_length, seq_length.
  - intros j Hj. assert (j < n)%nat. { destruct (parallel_inv _ _ _ H) as (p & ts & E & F & ->). now rewrite map_length, seq_length in Hj. }
    apply (C69_right_where_one_thread_adds [is] schedule pattern j 0 Hd H); [assumption|]. intros [|[|k]] is' i Hk; [lia|discriminate|discriminate].
Qed.
(** So do threads whose additions are single actions. *)
Theorem C69_right_with_atomic_additions shares s pattern : distributed shares m -> parallel shares (flat_map (fun k => [k; k]) s) = Some pattern -> pattern = serial.
Proof using.
  clear nonnegative. intros Hd H. destruct (parallel_inv _ _ _ H) as (p & ts & E & F & ->).
  assert (I : forall k, p k + remaining k ts = remaining k (start shares)).
  { apply (run_pairs (fun k => remaining k (start shares)) s (fun _ => 0) (start shares)) with (r := (p, ts)); [|intros; lra|now symmetry].
    apply Forall_forall. intros t Ht. unfold start in Ht. apply in_map_iff in Ht. destruct Ht as (is & <- & _). reflexivity. }
  apply (nth_ext _ _ 0 0); [unfold serial; now rewrite get_pattern_length, map_length, seq_length|].
  intros j Hj. rewrite map_length, seq_length in Hj. rewrite nth_pattern by exact Hj. specialize (I j).
  rewrite (done_remaining ts j F), (remaining_start shares j Hj Hd) in I. lra.
Qed.
(** Such an order of actions exists for every distribution: the sums are among the possible results. *)
Theorem C69_right_result_possible shares : distributed shares m -> exists s, parallel shares (flat_map (fun k => [k; k]) s) = Some serial.
Proof using.
  clear nonnegative. intros Hd.
  assert (App : forall s1 s2 p ts, run (s1 ++ s2) p ts = let (p', ts') := run s1 p ts in run s2 p' ts').
  { clear. induction s1 as [|k s1 IH]; intros s2 p ts; [reflexivity|]. cbn [app run]. destruct (nth_error ts k) as [t|]; [|apply IH]. destruct (step p t). apply IH. }
  assert (One : forall us l1 l2 p, exists p', run (flat_map (fun k => [k; k]) (repeat (List.length l1) (List.length us))) p (l1 ++ Thread us None :: l2) = (p', l1 ++ Thread [] None :: l2)).
  { clear. induction us as [|[j c] us IH]; intros l1 l2 p; [now exists p|]. cbn [List.length repeat flat_map app]. rewrite run_pair. apply IH. }
  assert (All : forall ts l1 p, Forall idle ts -> exists s p' ts', run (flat_map (fun k => [k; k]) s) p (l1 ++ ts) = (p', l1 ++ ts') /\ Forall (fun t => code t = []) ts').
  { clear - App One. induction ts as [|[us reg] ts IH]; intros l1 p Hi.
    - exists [], p, []. now split.
    - inversion Hi as [|? ? Hr Hi']; subst. unfold idle in Hr. cbn [register] in Hr. subst reg. destruct (One us l1 ts p) as [p1 E1].
      destruct (IH (l1 ++ [Thread [] None]) p1 Hi') as (s & p' & ts' & E2 & F).
      exists (repeat (List.length l1) (List.length us) ++ s), p', (Thread [] None :: ts'). split; [|now constructor].
      rewrite flat_map_app, App, E1. rewrite <- !app_assoc in E2. exact E2. }
  destruct (All (start shares) [] (fun _ => 0)) as (s & p' & ts' & E & F).
  - apply Forall_forall. intros t Ht. unfold start in Ht. apply in_map_iff in Ht. destruct Ht as (is & <- & _). reflexivity.
  - exists s. cbn [app] in E. pose proof (parallel_eq shares _ p' ts' E F) as P. rewrite P. f_equal. symmetry. symmetry. exact (C69_right_with_atomic_additions shares s _ Hd P).
Qed.
End Threads.

(** Two threads can lose an addition: the pattern of a simulation is not determined by its arguments.
    Reflectors 001 and 00-1 of intensity 1, one in each thread, and the direction x, in the middle of their
    common band: 1 with one order of actions, 1/2 if both threads read the pixel before one of them writes. *)
Theorem C69_threads_give_the_sum_refuted :
  ~ (forall intensity hemi refl theta shares schedule pattern, Forall (fun x => 0 <= x) intensity ->
       distributed shares (List.length refl) -> get_pattern_parallel intensity hemi refl theta shares schedule = Some pattern ->
       pattern = get_pattern intensity hemi refl theta)
  /\ exists intensity hemi refl theta shares schedule schedule' pattern pattern', Forall (fun x => 0 <= x) intensity /\
       distributed shares (List.length refl) /\
       get_pattern_parallel intensity hemi refl theta shares schedule = Some pattern /\
       get_pattern_parallel intensity hemi refl theta shares schedule' = Some pattern' /\
       pattern = [1] /\ pattern' = [1 / 2].
Proof.
  assert (A : addition 1 (PI / 6) (Vec 0 0 1) (Vec 1 0 0) = Some (0.5 * 1)).
  { unfold addition, vec_dot. cbn [vx vy vz]. replace (0 + 0 * 1 + 0 * 0 + 1 * 0) with 0 by ring. rewrite Rabs_R0. destruct (Rle_dec 0 (/ 10000000)); [reflexivity|lra]. }
  assert (B : addition 1 (PI / 6) (Vec 0 0 (-1)) (Vec 1 0 0) = Some (0.5 * 1)).
  { unfold addition, vec_dot. cbn [vx vy vz]. replace (0 + 0 * 1 + 0 * 0 + -1 * 0) with 0 by ring. rewrite Rabs_R0. destruct (Rle_dec 0 (/ 10000000)); [reflexivity|lra]. }
  set (P := get_pattern_parallel [1; 1] [Vec 1 0 0] [Vec 0 0 1; Vec 0 0 (-1)] [PI / 6; PI / 6] [[0%nat]; [1%nat]]).
  assert (Nn : Forall (fun x => 0 <= x) [1; 1]) by (repeat constructor; lra).
  assert (Dd : distributed [[0%nat]; [1%nat]] (List.length [Vec 0 0 1; Vec 0 0 (-1)])) by (unfold distributed; reflexivity).
  assert (E1 : P [0; 0; 1; 1]%nat = Some [1]).
  { unfold P, get_pattern_parallel, updates_of. cbn [List.length map flat_map seq app nth]. rewrite A, B. cbn. unfold write. cbn. f_equal. f_equal. lra. }
  assert (E2 : P [0; 1; 0; 1]%nat = Some [1 / 2]).
  { unfold P, get_pattern_parallel, updates_of. cbn [List.length map flat_map seq app nth]. rewrite A, B. cbn. unfold write. cbn. f_equal. f_equal. lra. }
  split.
  - intros H. pose proof (H _ _ _ _ _ _ _ Nn Dd E1) as H1. pose proof (H _ _ _ _ _ _ _ Nn Dd E2) as H2. rewrite <- H1 in H2. injection H2 as H2. lra.
  - exists [1; 1], [Vec 1 0 0], [Vec 0 0 1; Vec 0 0 (-1)], [PI / 6; PI / 6], [[0%nat]; [1%nat]], [0; 0; 1; 1]%nat, [0; 1; 0; 1]%nat, [1], [1 / 2]. auto 10.
Qed.
Print Assumptions C69_never_brighter.
Print Assumptions C69_threads_give_the_sum_refuted.
