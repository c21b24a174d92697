(** Directories of images (property C33). *)
From Coq Require Import List Arith ZArith Bool Lia Sorted Permutation.
From Verif Require Import Model.Binary Model.Sorting Model.EbsdDirectory Proofs.SortingProofs Proofs.PyArrayProofs.
Import ListNotations.
Local Open Scope nat_scope.

(** Rank of a coordinate: the number of different smaller ones. *)
Definition rank (l : list Z) (a : Z) : nat := length (nodup Z.eq_dec (filter (fun b => (b <? a)%Z) l)).

Lemma nodup_same_length (l l' : list Z) : NoDup l -> NoDup l' -> (forall a, In a l <-> In a l') -> length l = length l'.
Proof. intros N N' E. apply Permutation_length. apply NoDup_Permutation; assumption. Qed.
Lemma rank_unique l a : rank l a = length (filter (fun b => (b <? a)%Z) (unique l)).
Proof.
  unfold rank. apply nodup_same_length; [apply NoDup_nodup|apply NoDup_filter, sorted_nodup, unique_sorted|].
  intros b. rewrite nodup_In, !filter_In, unique_in. reflexivity.
Qed.
Lemma sorted_index : forall u, StronglySorted Z.lt u -> forall a, In a u -> index_of a u = Some (length (filter (fun b => (b <? a)%Z) u)).
Proof.
  induction u as [|x u IH]; intros S a I; [destruct I|]. apply StronglySorted_inv in S. destruct S as [S F]. rewrite Forall_forall in F. cbn.
  destruct (Z.eqb_spec x a) as [->|NE].
  - rewrite Z.ltb_irrefl. replace (filter (fun b => (b <? a)%Z) u) with (@nil Z); [reflexivity|]. symmetry. induction u as [|y u IU]; [reflexivity|]. cbn.
    destruct (Z.ltb_spec y a) as [L|_]; [specialize (F y (or_introl eq_refl)); lia|]. apply IU; [|apply StronglySorted_inv in S; tauto| |intros; apply F; right; assumption].
    + intros S2 b J. specialize (IH S). assert (SU : StronglySorted Z.lt (y :: u)) by exact S. destruct (in_dec Z.eq_dec b (y :: u)) as [K|K]; [|exfalso; apply K; right; exact J].
      specialize (IH b K). cbn in IH. destruct (Z.eqb_spec y b) as [->|NB]; [exfalso; apply StronglySorted_inv in SU; destruct SU as [_ FU]; rewrite Forall_forall in FU; specialize (FU b J); lia|].
      destruct (index_of b u); [|discriminate]. cbn in IH. apply StronglySorted_inv in SU. destruct SU as [_ FU]. rewrite Forall_forall in FU. specialize (FU b J).
      destruct (Z.ltb_spec y b); [|lia]. cbn in IH. congruence.
    + left. reflexivity.
  - destruct I as [|I]; [congruence|]. rewrite (IH S a I). cbn. destruct (Z.ltb_spec x a) as [L|L]; [reflexivity|]. specialize (F a I). lia.
Qed.
Lemma index_rank l a : In a l -> index_of a (unique l) = Some (rank l a).
Proof. intros I. rewrite rank_unique. apply sorted_index; [apply unique_sorted|apply unique_in; exact I]. Qed.

Section Directory.
Context {F Image : Type}.
Variable imread : F -> Image.
Notation file_reader := (file_reader F Image imread).

Lemma set_nth_length {A} (l : list A) : forall i a, length (set_nth l i a) = length l.
Proof using. induction l as [|x l IH]; intros [|i] a; cbn; auto. Qed.
Lemma set_nth_same {A} (l : list A) : forall i a, i < length l -> nth_error (set_nth l i a) i = Some a.
Proof using. induction l as [|x l IH]; intros [|i] a H; cbn in *; try lia; [reflexivity|]. apply IH. lia. Qed.
Lemma set_nth_other {A} (l : list A) : forall i j a, i <> j -> nth_error (set_nth l i a) j = nth_error l j.
Proof using. induction l as [|x l IH]; intros [|i] [|j] a H; cbn; try reflexivity; [lia|]. apply IH. lia. Qed.
Lemma all_some_spec {A} (l : list (option A)) r : all_some l = Some r -> length r = length l /\ forall k, nth_error l k = option_map Some (nth_error r k).
Proof using.
  revert r. induction l as [|x l IH]; intros r E; cbn in E; [injection E as <-; split; [reflexivity|intros []; reflexivity]|].
  destruct x as [a|]; [|discriminate]. cbn in E. destruct (all_some l) as [r'|]; [|discriminate]. cbn in E. injection E as <-.
  destruct (IH r' eq_refl) as [L N]. split; [cbn; lia|]. intros [|k]; cbn; [reflexivity|apply N].
Qed.
Lemma all_some_ok {A} (l : list (option A)) : (forall x, In x l -> x <> None) -> exists r, all_some l = Some r.
Proof using.
  induction l as [|x l IH]; intros H; [exists []; reflexivity|]. destruct x as [a|]; [|exfalso; apply (H None); [left; reflexivity|reflexivity]].
  destruct IH as [r E]; [intros; apply H; right; assumption|]. cbn. rewrite E. cbn. eauto.
Qed.

(** Where the entries end up. *)
Definition place (xs ys : list Z) (c : Z * Z) : option nat := let? j := index_of (snd c) ys in let? i := index_of (fst c) xs in Some (j * length xs + i).
Lemma place_inj xs ys c c' k : place xs ys c = Some k -> place xs ys c' = Some k -> c = c'.
Proof using.
  destruct c as [x y]. destruct c' as [x' y']. unfold place. cbn [fst snd].
  destruct (index_of y ys) as [j|] eqn:J; [|discriminate]. destruct (index_of x xs) as [i|] eqn:I; [|discriminate].
  destruct (index_of y' ys) as [j'|] eqn:J'; [|discriminate]. destruct (index_of x' xs) as [i'|] eqn:I'; [|discriminate]. cbn [bind].
  intros E E'. injection E as E. injection E' as E'. apply index_of_some in J, I, J', I'.
  assert (BI : i < length xs) by (apply nth_error_Some; congruence). assert (BI' : i' < length xs) by (apply nth_error_Some; congruence).
  destruct (Nat.div_mod_unique (length xs) j j' i i') as [-> ->]; [assumption|assumption|lia|]. congruence.
Qed.
Lemma place_lt xs ys c k : place xs ys c = Some k -> k < length ys * length xs.
Proof using.
  unfold place. destruct (index_of (snd c) ys) as [j|] eqn:J; [|discriminate]. destruct (index_of (fst c) xs) as [i|] eqn:I; [|discriminate]. cbn [bind].
  intros E. injection E as <-. apply index_of_some in J, I.
  assert (i < length xs) by (apply nth_error_Some; congruence). assert (j < length ys) by (apply nth_error_Some; congruence). nia.
Qed.
Definition put1 (xs ys : list Z) (acc : option (list (option Image))) (e : (Z * Z) * Image) :=
  let? data := acc in let? j := index_of (snd (fst e)) ys in let? i := index_of (fst (fst e)) xs in Some (set_nth data (j * length xs + i) (Some (snd e))).
Lemma put1_place xs ys d e k : place xs ys (fst e) = Some k -> put1 xs ys (Some d) e = Some (set_nth d k (Some (snd e))).
Proof using.
  unfold put1, place. cbn [bind]. destruct (index_of (snd (fst e)) ys); [|discriminate]. destruct (index_of (fst (fst e)) xs); [|discriminate]. cbn [bind].
  intros E. injection E as <-. reflexivity.
Qed.
Lemma fill_spec xs ys : forall entries d, (forall e, In e entries -> place xs ys (fst e) <> None) -> length d = length ys * length xs -> NoDup (map fst entries) ->
  exists r, fold_left (put1 xs ys) entries (Some d) = Some r /\ length r = length d /\
    (forall e k, In e entries -> place xs ys (fst e) = Some k -> nth_error r k = Some (Some (snd e))) /\
    (forall k, (forall e, In e entries -> place xs ys (fst e) <> Some k) -> nth_error r k = nth_error d k).
Proof using.
  induction entries as [|e entries IH]; intros d P L N; [exists d; cbn; repeat split; auto; intros; tauto|].
  destruct (place xs ys (fst e)) as [k0|] eqn:P0; [|exfalso; apply (P e (or_introl eq_refl)); exact P0].
  apply NoDup_cons_iff in N; destruct N as [NI N']. cbn [fold_left]. rewrite (put1_place xs ys d e k0 P0).
  destruct (IH (set_nth d k0 (Some (snd e)))) as [r [E [LR [IN OUT]]]]; [intros; apply P; right; assumption|rewrite set_nth_length; exact L|exact N'|].
  exists r. split; [exact E|]. split; [rewrite LR; apply set_nth_length|]. split.
  - intros e' k [<-|I] PK.
    + rewrite P0 in PK. injection PK as <-. rewrite OUT; [apply set_nth_same; rewrite L; eapply place_lt; exact P0|].
      intros e' I PE. apply NI. replace (fst e) with (fst e'); [apply in_map; exact I|]. eapply place_inj; [exact PE|exact P0].
    + apply IN; assumption.
  - intros k H. rewrite OUT; [|intros; apply H; right; assumption]. apply set_nth_other. intros ->. apply (H e); [left; reflexivity|exact P0].
Qed.

(** The files form a full grid: coordinates are found in all their names, no two files have the same ones, and there is
    a file for each pair of the x and y that occur. *)
Definition full_grid (p : regex F) (files : list F) (coords : list (Z * Z)) : Prop :=
  files <> [] /\ map p files = map Some coords /\ NoDup coords /\
  length coords = length (nodup Z.eq_dec (map fst coords)) * length (nodup Z.eq_dec (map snd coords)).
(** The regular expression given, or the first of the default ones that matches, which is the same for all names. *)
Definition uses (defaults : list (regex F)) (given : option (regex F)) (files : list F) (p : regex F) : Prop :=
  given = Some p \/ given = None /\ forall f, In f files -> exists before after,
    defaults = before ++ p :: after /\ p f <> None /\ forall q, In q before -> q f = None.

Lemma all_some_map_some {A} (l : list A) : all_some (map Some l) = Some l.
Proof using. induction l as [|a l IH]; [reflexivity|]. cbn. rewrite IH. reflexivity. Qed.
Lemma nodup_unique l : length (nodup Z.eq_dec l) = length (unique l).
Proof using. apply nodup_same_length; [apply NoDup_nodup|apply sorted_nodup, unique_sorted|]. intros a. rewrite nodup_In, unique_in. reflexivity. Qed.
Lemma uses_pattern defaults given files p f0 : uses defaults given files p -> In f0 files ->
  match given with Some q => Some q | None => find (fun q => matches F q f0) defaults end = Some p.
Proof using.
  intros [->|[-> H]] I; [reflexivity|]. destruct (H f0 I) as (before & after & -> & Hp & Hb). clear H.
  induction before as [|q before IH]; cbn [find app]; unfold matches in *.
  - destruct (p f0); [reflexivity|contradiction].
  - rewrite (Hb q (or_introl eq_refl)). apply IH. intros r Hr. apply Hb. now right.
Qed.
Lemma combine_nth_pair {A B} (l : list A) (l' : list B) k a b : nth_error l k = Some a -> nth_error l' k = Some b -> nth_error (combine l l') k = Some (a, b).
Proof using. revert l l'. induction k as [|k IH]; intros [|x l] [|y l'] X Y; cbn in *; try discriminate; [congruence|]. apply IH; assumption. Qed.

Lemma read_grid defaults given files p coords : uses defaults given files p -> full_grid p files coords ->
  exists s, file_reader defaults given files = Some s /\
    nav_shape Image s = [length (nodup Z.eq_dec (map snd coords)); length (nodup Z.eq_dec (map fst coords))] /\ length (images Image s) = length files /\
    forall k f x y, nth_error files k = Some f -> p f = Some (x, y) ->
      nth_error (images Image s) (rank (map snd coords) y * length (nodup Z.eq_dec (map fst coords)) + rank (map fst coords) x) = Some (imread f).
Proof using.
  intros U [NE [MP [ND CNT]]]. unfold EbsdDirectory.file_reader. destruct files as [|f0 rest] eqn:EF; [congruence|]. cbn [hd_error bind]. rewrite <- EF in *.
  rewrite (uses_pattern defaults given files p f0 U) by (rewrite EF; left; reflexivity). rewrite MP, all_some_map_some. cbn [bind].
  assert (LC : length files = length coords) by (apply (f_equal (@length _)) in MP; rewrite !map_length in MP; exact MP).
  rewrite !nodup_unique in CNT |- *. set (xs := unique (map fst coords)) in *. set (ys := unique (map snd coords)) in *.
  rewrite LC, CNT, (Nat.mul_comm (length xs)), Nat.eqb_refl. cbn [negb].
  set (entries := combine coords (map imread files)).
  assert (ME : map fst entries = coords).
  { unfold entries. clear - LC. revert files LC. induction coords as [|c cs IH]; intros [|f fs] L; cbn in *; try discriminate; [reflexivity|]. f_equal. apply IH. lia. }
  assert (PL : forall c, In c coords -> place xs ys c = Some (rank (map snd coords) (snd c) * length xs + rank (map fst coords) (fst c))).
  { intros c I. unfold place, xs, ys. rewrite !index_rank by (apply in_map; exact I). reflexivity. }
  assert (IE : forall e, In e entries -> In (fst e) coords) by (intros [c i] I; unfold entries in I; apply in_combine_l in I; exact I).
  destruct (fill_spec xs ys entries (repeat None (length ys * length xs))) as [r [FR [LR [IN OUT]]]].
  { intros e I. rewrite (PL _ (IE e I)). discriminate. } { apply repeat_length. } { rewrite ME. exact ND. }
  unfold fill. fold (put1 xs ys). change (fun acc (e : (Z * Z) * Image) => let? data := acc in let? j := index_of (snd (fst e)) ys in let? i := index_of (fst (fst e)) xs in Some (set_nth data (j * length xs + i) (Some (snd e)))) with (put1 xs ys).
  rewrite FR. cbn [bind]. rewrite repeat_length in LR.
  (* every place is filled, by counting *)
  assert (FULL : forall k, k < length ys * length xs -> exists c, In c coords /\ place xs ys c = Some k).
  { intros k K. set (ks := map (fun c => rank (map snd coords) (snd c) * length xs + rank (map fst coords) (fst c)) coords).
    assert (NK : NoDup ks).
    { assert (G : forall l, (forall c, In c l -> In c coords) -> NoDup l -> NoDup (map (fun c => rank (map snd coords) (snd c) * length xs + rank (map fst coords) (fst c)) l)).
      { induction l as [|c l IH]; intros S N; [constructor|]. apply NoDup_cons_iff in N; destruct N as [NI N']. cbn [map]. constructor; [|apply IH; [intros; apply S; right; assumption|exact N']].
        intros I. apply in_map_iff in I. destruct I as [c' [E I]]. apply NI. replace c with c'; [exact I|].
        apply (place_inj xs ys c' c (rank (map snd coords) (snd c) * length xs + rank (map fst coords) (fst c))); [rewrite PL by (apply S; right; exact I); f_equal; exact E|apply PL, S; left; reflexivity]. }
      apply G; auto. }
    assert (INC : incl ks (seq 0 (length ys * length xs))).
    { intros a I. apply in_map_iff in I. destruct I as [c [<- I]]. apply in_seq. pose proof (place_lt xs ys c _ (PL c I)). lia. }
    assert (IK : In k ks).
    { apply (NoDup_length_incl NK (l' := seq 0 (length ys * length xs))); [unfold ks; rewrite seq_length, map_length; lia|exact INC|apply in_seq; lia]. }
    apply in_map_iff in IK. destruct IK as [c [E I]]. exists c. split; [exact I|]. rewrite PL by exact I. f_equal. exact E. }
  assert (ENT : forall k c, nth_error coords k = Some c -> exists f, nth_error files k = Some f /\ In (c, imread f) entries).
  { intros k c K. assert (KL : k < length files) by (rewrite LC; apply nth_error_Some; congruence). destruct (nth_error files k) as [f|] eqn:EK; [|apply nth_error_None in EK; lia].
    exists f. split; [reflexivity|]. eapply nth_error_In. apply combine_nth_pair; [exact K|rewrite nth_error_map, EK; reflexivity]. }
  destruct (all_some_ok r) as [r' AR].
  { intros o I E. subst o. apply In_nth_error in I. destruct I as [k K]. assert (KL : k < length r) by (apply nth_error_Some; congruence). rewrite LR in KL.
    destruct (FULL k KL) as [c [IC PC]]. apply In_nth_error in IC. destruct IC as [m M]. destruct (ENT m c M) as [f [_ EI]]. rewrite (IN _ k EI PC) in K. discriminate. }
  rewrite AR. cbn [bind]. destruct (all_some_spec r r' AR) as [LR' NR']. eexists. split; [reflexivity|]. cbn [nav_shape images].
  split; [reflexivity|]. split; [rewrite LR', LR; lia|]. intros k f x y K PF.
  assert (KC : nth_error coords k = Some (x, y)).
  { assert (E : nth_error (map p files) k = nth_error (map Some coords) k) by (rewrite MP; reflexivity). rewrite !nth_error_map, K in E. cbn in E. rewrite PF in E.
    destruct (nth_error coords k); [|discriminate]. cbn in E. congruence. }
  destruct (ENT k (x, y) KC) as [f' [KF EI]]. rewrite K in KF. injection KF as <-.
  assert (IC : In (x, y) coords) by (eapply nth_error_In; exact KC).
  pose proof (IN _ _ EI (PL _ IC)) as RES. rewrite NR' in RES. cbn [fst snd] in RES. destruct (nth_error r' _); [|discriminate]. cbn in RES. congruence.
Qed.

(** Each image is at the row and column given by the ranks of its coordinates. *)
Theorem C33_position_of_images defaults given files p coords : uses defaults given files p -> full_grid p files coords ->
  exists s, file_reader defaults given files = Some s /\
    nav_shape Image s = [length (nodup Z.eq_dec (map snd coords)); length (nodup Z.eq_dec (map fst coords))] /\ length (images Image s) = length files /\
    forall f x y, In f files -> p f = Some (x, y) ->
      nth_error (images Image s) (rank (map snd coords) y * length (nodup Z.eq_dec (map fst coords)) + rank (map fst coords) x) = Some (imread f).
Proof using.
  intros U G. destruct (read_grid _ _ _ _ _ U G) as [s [E [NS [LI H]]]]. exists s. split; [exact E|]. split; [exact NS|]. split; [exact LI|].
  intros f x y I PF. apply In_nth_error in I. destruct I as [k K]. apply (H k f x y K PF).
Qed.

Lemma rank_same l l' a : (forall b, In b l <-> In b l') -> rank l a = rank l' a.
Proof using.
  intros E. unfold rank. apply nodup_same_length; [apply NoDup_nodup|apply NoDup_nodup|]. intros b. rewrite !nodup_In, !filter_In, E. reflexivity.
Qed.
Lemma nodup_perm_length (l l' : list Z) : Permutation l l' -> length (nodup Z.eq_dec l) = length (nodup Z.eq_dec l').
Proof using.
  intros P. apply nodup_same_length; [apply NoDup_nodup|apply NoDup_nodup|]. intros b. rewrite !nodup_In. split; apply Permutation_in; [exact P|apply Permutation_sym; exact P].
Qed.

(** The result does not depend on the order in which the files are listed. *)
Theorem C33_listing_order defaults given files files' p coords : uses defaults given files p -> full_grid p files coords -> Permutation files files' ->
  file_reader defaults given files' = file_reader defaults given files.
Proof using.
  intros U G P. pose proof G as [NE [MP [ND CNT]]].
  assert (EX : exists coords', map p files' = map Some coords' /\ Permutation coords coords').
  { assert (PM : Permutation (map Some coords) (map p files')) by (rewrite <- MP; apply Permutation_map; exact P).
    apply Permutation_sym in PM. apply Permutation_map_inv in PM. destruct PM as [c' [E PC]]. exists c'. split; [exact E|exact PC]. }
  destruct EX as [coords' [MP' PC]].
  assert (U' : uses defaults given files' p) by (destruct U as [U|[U1 U2]]; [left; exact U|right; split; [exact U1|intros f I; apply U2; eapply Permutation_in; [apply Permutation_sym; exact P|exact I]]]).
  assert (G' : full_grid p files' coords').
  { split; [intros ->; apply NE; apply Permutation_nil; apply Permutation_sym; exact P|]. split; [exact MP'|]. split; [eapply Permutation_NoDup; [exact PC|exact ND]|].
    rewrite <- (Permutation_length PC), CNT. f_equal; apply nodup_perm_length, Permutation_map; exact PC. }
  destruct (read_grid _ _ _ _ _ U G) as [s [E [NS [LI H]]]]. destruct (read_grid _ _ _ _ _ U' G') as [s' [E' [NS' [LI' H']]]].
  rewrite E, E'. f_equal. destruct s as [ns im]. destruct s' as [ns' im']. cbn [nav_shape images] in *.
  assert (NX : length (nodup Z.eq_dec (map fst coords)) = length (nodup Z.eq_dec (map fst coords'))) by (apply nodup_perm_length, Permutation_map; exact PC).
  assert (NY : length (nodup Z.eq_dec (map snd coords)) = length (nodup Z.eq_dec (map snd coords'))) by (apply nodup_perm_length, Permutation_map; exact PC).
  assert (EN : ns' = ns) by congruence. f_equal; [exact EN|].
  assert (RK : forall (g : Z * Z -> Z) a, rank (map g coords') a = rank (map g coords) a).
  { intros g a. apply rank_same. intros b. split; apply Permutation_in; [apply Permutation_sym|]; apply Permutation_map; exact PC. }
  (* compare entry by entry: each place holds an image of a file *)
  assert (LC : length files = length coords) by (apply (f_equal (@length _)) in MP; rewrite !map_length in MP; exact MP).
  set (nx := length (nodup Z.eq_dec (map fst coords))) in *. set (ny := length (nodup Z.eq_dec (map snd coords))) in *.
  set (pos := fun c : Z * Z => rank (map snd coords) (snd c) * nx + rank (map fst coords) (fst c)).
  assert (BR : forall c, In c coords -> pos c < nx * ny /\ forall c', In c' coords -> pos c = pos c' -> c = c').
  { intros c I. assert (PL : forall c, In c coords -> place (unique (map fst coords)) (unique (map snd coords)) c = Some (pos c)).
    { intros d J. unfold place, pos, nx. rewrite !index_rank by (apply in_map; exact J). cbn [bind]. rewrite nodup_unique. reflexivity. }
    split; [pose proof (place_lt _ _ _ _ (PL c I)) as LT; unfold nx, ny; rewrite !nodup_unique; lia|].
    intros c' J EQ. eapply place_inj; [apply PL; exact I|rewrite EQ; apply PL; exact J]. }
  assert (LE : forall k, k < nx * ny -> exists c, In c coords /\ pos c = k).
  { intros k K. assert (NK : NoDup (map pos coords)).
    { assert (Q : forall l, (forall c, In c l -> In c coords) -> NoDup l -> NoDup (map pos l)).
      { induction l as [|c l IH]; intros S N; [constructor|]. apply NoDup_cons_iff in N; destruct N as [NI N']. cbn [map]. constructor; [|apply IH; [intros; apply S; right; assumption|exact N']].
        intros I. apply in_map_iff in I. destruct I as [c' [EC I]]. apply NI. replace c with c'; [exact I|]. apply (proj2 (BR c' (S _ (or_intror I)))); [apply S; left; reflexivity|exact EC]. }
      apply Q; auto. }
    assert (INC : incl (map pos coords) (seq 0 (nx * ny))) by (intros a I; apply in_map_iff in I; destruct I as [c [<- I]]; apply in_seq; pose proof (proj1 (BR c I)); lia).
    assert (IK : In k (map pos coords)) by (apply (NoDup_length_incl NK (l' := seq 0 (nx * ny))); [rewrite seq_length, map_length; lia|exact INC|apply in_seq; lia]).
    apply in_map_iff in IK. destruct IK as [c [EC I]]. exists c. auto. }
  assert (LL : length im' = length im) by (rewrite LI, LI', <- (Permutation_length P); reflexivity).
  apply nth_error_ext. intros k. destruct (lt_dec k (length im)) as [K|K].
  - destruct (LE k) as [[x y] [IC <-]]; [rewrite LI, LC, CNT in K; lia|].
    apply In_nth_error in IC. destruct IC as [m M].
    assert (MF : nth_error (map p files) m = Some (Some (x, y))) by (rewrite MP, nth_error_map, M; reflexivity). rewrite nth_error_map in MF.
    destruct (nth_error files m) as [f|] eqn:FM; [|discriminate]. cbn in MF. injection MF as PF.
    pose proof (H m f x y FM PF) as R1.
    assert (I' : In f files') by (eapply Permutation_in; [exact P|eapply nth_error_In; exact FM]). apply In_nth_error in I'. destruct I' as [m' M'].
    pose proof (H' m' f x y M' PF) as R2. rewrite !RK, <- NX in R2. unfold pos. cbn [fst snd]. rewrite R1, R2. reflexivity.
  - rewrite (proj2 (nth_error_None im k)), (proj2 (nth_error_None im' k)) by lia. reflexivity.
Qed.

(** Without coordinates in the names, or with other numbers of files than points, images come in the order in which files are listed. *)
Theorem C33_without_coordinates files : files <> [] -> file_reader [] None files = Some (Scan Image [length files] (map imread files)).
Proof using. intros NE. destruct files as [|f r]; [congruence|]. reflexivity. Qed.
Theorem C33_other_number_of_files p files coords : files <> [] -> map p files = map Some coords ->
  length coords <> length (nodup Z.eq_dec (map fst coords)) * length (nodup Z.eq_dec (map snd coords)) ->
  file_reader [] (Some p) files = Some (Scan Image [length files] (map imread files)).
Proof using.
  intros NE MP CNT. unfold EbsdDirectory.file_reader. destruct files as [|f0 rest] eqn:EF; [congruence|]. cbn [hd_error bind]. rewrite <- EF in *.
  rewrite MP, all_some_map_some. cbn [bind]. rewrite !nodup_unique in CNT.
  assert (LC : length files = length coords) by (apply (f_equal (@length _)) in MP; rewrite !map_length in MP; exact MP).
  destruct (Nat.eqb_spec (length files) (length (unique (map snd coords)) * length (unique (map fst coords)))) as [E|E]; [exfalso; apply CNT; lia|reflexivity].
Qed.
End Directory.

(** ** Concrete cases: files are their coordinates and a number *)
Definition demo_files : list (Z * Z * nat) := [(7%Z, 2%Z, 1); (3%Z, 2%Z, 2); (5%Z, 9%Z, 3); (3%Z, 9%Z, 4); (7%Z, 9%Z, 5); (5%Z, 2%Z, 6)].
Definition demo_regex : regex (Z * Z * nat) := fun f => Some (fst f).
Example demo_grid : full_grid demo_regex demo_files (map fst demo_files) /\ uses [demo_regex] None demo_files demo_regex.
Proof.
  split; [|right; split; [reflexivity|]; intros f _; exists [], []; split; [reflexivity|]; split; [discriminate|intros q []]]. split; [discriminate|]. split; [reflexivity|]. split; [|reflexivity].
  cbn. repeat constructor; cbn; intuition congruence.
Qed.
Example C33_used : file_reader _ _ snd [demo_regex] None demo_files = Some (Scan nat [2; 3] [2; 6; 1; 4; 3; 5]) /\
  file_reader _ _ snd [demo_regex] None (rev demo_files) = Some (Scan nat [2; 3] [2; 6; 1; 4; 3; 5]).
Proof. split; vm_compute; reflexivity. Qed.
Example C33_order_matters : file_reader _ _ (fun n : nat => n) [] None [1; 2] <> file_reader _ _ (fun n : nat => n) [] None [2; 1].
Proof. vm_compute. discriminate. Qed.

Print Assumptions C33_position_of_images.
Print Assumptions C33_listing_order.
