(** C77: datasets from the package, the cache and the web. *)
From Coq Require Import String List Bool Arith Lia.
From Verif Require Import Model.Datasets.
Import ListNotations.
Local Open Scope list_scope.

Section Proofs.
Context {Content : Type} (md5 : Content -> string) (members : Content -> list (path * Content)).
Notation disk := (disk Content).
Notation fetch := (fetch_file_path md5 members).

Lemma path_eqb_spec p q : reflect (p = q) (path_eqb p q).
Proof. unfold path_eqb. destruct (list_eq_dec string_dec p q); now constructor. Qed.
Lemma path_eqb_refl p : path_eqb p p = true.
Proof. destruct (path_eqb_spec p p); congruence. Qed.
Lemma find_drop p q (l : list (path * Content)) : find_file q (drop p l) = if path_eqb p q then None else find_file q l.
Proof.
  unfold find_file, drop. induction l as [|[x c] l IH]; cbn; [now destruct (path_eqb p q)|].
  destruct (path_eqb_spec x p) as [->|N]; cbn.
  - rewrite IH. destruct (path_eqb_spec p q) as [->|N]; [reflexivity|]. reflexivity.
  - destruct (path_eqb_spec x q) as [->|N']; [|exact IH]. cbn. destruct (path_eqb_spec p q) as [->|]; [congruence|reflexivity].
Qed.
Lemma find_put p q c (l : list (path * Content)) : find_file q ((p, c) :: drop p l) = if path_eqb p q then Some c else find_file q l.
Proof.
  unfold find_file at 1. cbn. destruct (path_eqb_spec p q) as [->|N]; [reflexivity|]. fold (find_file q (drop p l)). rewrite find_drop. destruct (path_eqb_spec p q); [contradiction|reflexivity].
Qed.
Lemma run_app es es' (d : disk) : run (es ++ es') d = run es' (run es d).
Proof. apply fold_left_app. Qed.
Lemma find_run_last p c es (d : disk) : find_file p (files (run (es ++ [Move p c]) d)) = Some c.
Proof. rewrite run_app. cbn. now rewrite find_put, path_eqb_refl. Qed.

(** Effects outside a set of paths change nothing there. *)
Definition touches (e : effect Content) : option path := match e with Move p _ | Extract p _ | Remove p => Some p | Make_folder _ => None end.
Lemma run_untouched q es : (forall e, In e es -> touches e <> Some q) -> forall d : disk, find_file q (files (run es d)) = find_file q (files d).
Proof.
  induction es as [|e es IH]; intros H d; [reflexivity|]. change (run (e :: es) d) with (run es (apply e d)). rewrite IH by (intros e' I; apply H; now right).
  specialize (H e (or_introl eq_refl)). destruct e; cbn in H |- *; try reflexivity.
  - rewrite find_put. destruct (path_eqb_spec p q); [congruence|reflexivity].
  - rewrite find_put. destruct (path_eqb_spec p q); [congruence|reflexivity].
  - rewrite find_drop. destruct (path_eqb_spec p q); [congruence|reflexivity].
Qed.

(** pooch *)
Lemma find_valid h l : find (valid md5 h) l = match find (valid md5 h) l with Some (Some c) => Some (Some c) | _ => None end.
Proof. destruct (find (valid md5 h) l) as [[c|]|] eqn:E; try reflexivity. apply find_some in E. destruct E as [_ E]. discriminate. Qed.
Lemma pooch_sound r net p (d : disk) a : value (pooch_fetch md5 r net p d) = Some a ->
  exists h c, lookup p (hashes r) = Some h /\ find_file p (files (run (done (pooch_fetch md5 r net p d)) d)) = Some c /\ md5 c = h.
Proof.
  unfold pooch_fetch. destruct (lookup p (hashes r)) as [h|]; [|discriminate]. destruct (valid md5 h (find_file p (files d))) eqn:V.
  - intros _. cbn. destruct (find_file p (files d)) as [c|]; [|discriminate]. exists h, c. repeat split. now apply String.eqb_eq.
  - destruct (lookup p (urls r)) as [u|]; [|discriminate]. destruct (find (valid md5 h) (firstn 6 (net u))) as [[c|]|] eqn:F; try discriminate. intros _.
    exists h, c. split; [reflexivity|]. split; [apply (find_run_last p c [])|]. apply find_some in F. destruct F as [_ F]. now apply String.eqb_eq.
Qed.
Lemma pooch_touches r net p (d : disk) e : In e (done (pooch_fetch md5 r net p d)) -> touches e = Some p.
Proof.
  unfold pooch_fetch. destruct (lookup p (hashes r)) as [h|]; [|contradiction]. destruct (valid md5 h _); [contradiction|]. destruct (lookup p (urls r)); [|contradiction].
  destruct (find _ _) as [[c|]|]; try contradiction. intros [<-|[]]. reflexivity.
Qed.

(** A path that is returned leads to a file with the registered hash, whatever is on the disk and whatever the servers send. *)
Theorem C77_integrity installed package r net s allow d place :
  value (fetch installed package r net s allow d) = Some place ->
  exists h c, lookup (file_relpath s) (hashes r) = Some h /\ md5 c = h /\
    match place with
    | In_package => find_file (file_relpath s) package = Some c
    | In_cache => find_file (file_relpath s) (files (run (done (fetch installed package r net s allow d)) d)) = Some c
    end.
Proof.
  unfold fetch_file_path. destruct (lookup (file_relpath s) (hashes r)) as [h|] eqn:L; [|discriminate]. destruct (find_file (file_relpath s) package) as [c|] eqn:P.
  - cbn. destruct (String.eqb_spec (md5 c) h) as [E|]; [|discriminate]. intros X. injection X as <-. now exists h, c.
  - destruct installed; [|discriminate]. cbn [negb]. destruct (negb (valid md5 h (find_file (file_relpath s) (files d))) && negb allow); [discriminate|].
    set (f := match collection s with Some coll => _ | None => _ end). destruct (value f) as [u|]; [|discriminate]. cbn [value done].
    destruct (value (pooch_fetch md5 r net (file_relpath s) (run (done f) d))) as [a|] eqn:A; [|discriminate]. intros X. injection X as <-.
    apply pooch_sound in A. destruct A as (h' & c & L' & F & M). exists h, c. rewrite L in L'. injection L' as <-. rewrite run_app. now repeat split.
Qed.
(** Without permission nothing is downloaded and nothing changes. *)
Theorem C77_nothing_without_permission installed package r net s d :
  traffic (fetch installed package r net s false d) = [] /\ done (fetch installed package r net s false d) = [].
Proof.
  unfold fetch_file_path. destruct (lookup (file_relpath s) (hashes r)) as [h|] eqn:L; [|now split]. destruct (find_file (file_relpath s) package); [now split|].
  destruct installed; [|now split]. cbn [negb]. destruct (valid md5 h (find_file (file_relpath s) (files d))) eqn:V; [|now split]. cbn [andb negb].
  destruct (collection s); cbn [value done traffic run fold_left]; unfold pooch_fetch; rewrite L, V; now split.
Qed.
(** A file with the right hash is used as it is, downloads allowed or not. *)
Theorem C77_valid_file_is_used package r net s allow d h c : lookup (file_relpath s) (hashes r) = Some h -> md5 c = h ->
  (forall installed, find_file (file_relpath s) package = Some c -> fetch installed package r net s allow d = Result [] [] (Some In_package)) /\
  (find_file (file_relpath s) package = None -> find_file (file_relpath s) (files d) = Some c -> fetch true package r net s allow d = Result [] [] (Some In_cache)).
Proof.
  intros L M. assert (V : valid md5 h (Some c) = true) by (cbn; rewrite M; apply String.eqb_refl). unfold fetch_file_path. rewrite L. split.
  - intros installed P. rewrite P, V. reflexivity.
  - intros P F. rewrite P, F, V. cbn [negb andb]. destruct (collection s); cbn [value done traffic run fold_left]; unfold pooch_fetch; rewrite L, F, V; reflexivity.
Qed.
(** A file in the package with another hash is always refused. *)
Theorem C77_damaged_package_refused installed package r net s allow d h c : lookup (file_relpath s) (hashes r) = Some h ->
  find_file (file_relpath s) package = Some c -> md5 c <> h -> fetch installed package r net s allow d = Result [] [] None.
Proof. intros L P M. unfold fetch_file_path. rewrite L, P. cbn. destruct (String.eqb_spec (md5 c) h); [contradiction|reflexivity]. Qed.
(** A damaged or missing file in the cache is refused without permission. *)
Theorem C77_damaged_cache_refused installed package r net s d h : lookup (file_relpath s) (hashes r) = Some h -> find_file (file_relpath s) package = None ->
  (forall c, find_file (file_relpath s) (files d) = Some c -> md5 c <> h) -> value (fetch installed package r net s false d) = None.
Proof.
  intros L P N. unfold fetch_file_path. rewrite L, P. destruct installed; [|reflexivity]. cbn [negb].
  destruct (find_file (file_relpath s) (files d)) as [c|]; [|reflexivity]. specialize (N c eq_refl). cbn [valid]. destruct (String.eqb_spec (md5 c) h); [contradiction|reflexivity].
Qed.

(** A server is honest if one of its six answers has the registered hash. *)
Definition answers (net : network Content) (u h : string) : Prop := exists c, In (Some c) (firstn 6 (net u)) /\ md5 c = h.
Lemma pooch_answers r net p (d : disk) h u : lookup p (hashes r) = Some h -> lookup p (urls r) = Some u -> answers net u h -> 
  exists a, value (pooch_fetch md5 r net p d) = Some a.
Proof.
  intros L U (c & I & M). unfold pooch_fetch. rewrite L, U. destruct (valid md5 h _); [eexists; reflexivity|].
  destruct (find (valid md5 h) (firstn 6 (net u))) as [[c'|]|] eqn:F; [eexists; reflexivity| |].
  - apply find_some in F. destruct F as [_ F]. discriminate F.
  - apply (find_none _ _ F) in I. cbn in I. rewrite M, String.eqb_refl in I. discriminate.
Qed.
(** With permission and an honest server a single file is always obtained, whatever is on the disk. *)
Theorem C77_download_succeeds package r net s d h u : lookup (file_relpath s) (hashes r) = Some h -> lookup (file_relpath s) (urls r) = Some u -> answers net u h ->
  collection s = None -> find_file (file_relpath s) package = None -> value (fetch true package r net s true d) = Some In_cache.
Proof.
  intros L U A Co P. unfold fetch_file_path. rewrite L, P, Co, andb_false_r. cbn [negb value done]. destruct (pooch_answers r net _ (run [] d) h u L U A) as [a E]. rewrite E. reflexivity.
Qed.

(** A file in an archive *)
Definition good_archive (s : dataset) (h : string) (z : Content) : Prop :=
  (exists c, In ([name s], c) (members z)) /\ forall c, In ([name s], c) (members z) -> md5 c = h.
Definition honest_archive (r : registry) (net : network Content) (s : dataset) (coll h : string) : Prop :=
  exists hz u, lookup ["data"%string; coll] (hashes r) = Some hz /\ lookup ["data"%string; coll] (urls r) = Some u /\ answers net u hz /\
    forall z, In (Some z) (firstn 6 (net u)) -> md5 z = hz -> good_archive s h z.
Lemma extract_find dir p (ms : list (path * Content)) : forall d : disk, 
  find_file (dir ++ p) (files (run (map (fun m => Extract (dir ++ fst m) (snd m)) ms) d)) = 
  match find_file p (rev ms) with Some c => Some c | None => find_file (dir ++ p) (files d) end.
Proof.
  induction ms as [|[q c] ms IH] using rev_ind; intros d; [reflexivity|]. rewrite map_app, run_app, rev_app_distr. cbn. rewrite find_put.
  unfold find_file at 2. cbn. destruct (path_eqb_spec q p) as [->|N]; [now rewrite path_eqb_refl|].
  destruct (path_eqb_spec (dir ++ q) (dir ++ p)) as [E|_]; [apply app_inv_head in E; contradiction|]. apply IH.
Qed.
Lemma find_file_in p l (c : Content) : find_file p l = Some c -> In (p, c) l.
Proof.
  unfold find_file. destruct (find _ l) as [[q c']|] eqn:F; [|discriminate]. intros E. injection E as <-. apply find_some in F. destruct F as [I Q]. cbn in Q. destruct (path_eqb_spec q p) as [->|]; [exact I|discriminate].
Qed.
Lemma find_file_some p l (c : Content) : In (p, c) l -> exists c', find_file p l = Some c'.
Proof.
  intros I. unfold find_file. destruct (find (fun e => path_eqb (fst e) p) l) as [[q c']|] eqn:F; [eexists; reflexivity|].
  apply (find_none _ _ F) in I. cbn in I. now rewrite path_eqb_refl in I.
Qed.
Lemma relpath_dir s : file_relpath s = file_directory s ++ [name s].
Proof. reflexivity. Qed.
Lemma prefix_app p q : is_prefix p (p ++ q) = true.
Proof. induction p as [|x p IH]; [reflexivity|]. cbn. now rewrite String.eqb_refl. Qed.
Lemma relpath_not_zip s coll : folder s <> [] -> file_relpath s <> ["data"%string; coll].
Proof. intros F E. unfold file_relpath in E. destruct (folder s) as [|x [|y l]]; [contradiction| |]; discriminate. Qed.

(** Without an archive left in the cache one call is enough. *)
Theorem C77_archive_succeeds package r net s coll d h : lookup (file_relpath s) (hashes r) = Some h -> folder s <> [] ->
  collection s = Some coll -> find_file (file_relpath s) package = None -> honest_archive r net s coll h ->
  find_file ["data"%string; coll] (files d) = None -> value (fetch true package r net s true d) = Some In_cache.
Proof.
  intros L NE Co P (hz & u & Lz & Uz & A & G) Z. unfold fetch_file_path. rewrite L, P, Co, andb_false_r. cbn [negb].
  destruct (valid md5 h (find_file (file_relpath s) (files d))) eqn:V.
  - cbn [value done run fold_left]. unfold pooch_fetch. now rewrite L, V.
  - set (f := fetch_collection md5 members r net s coll d).
    assert (F : value f = Some tt /\ exists c, find_file (file_relpath s) (files (run (done f) d)) = Some c /\ md5 c = h).
    { unfold f, fetch_collection, pooch_fetch. rewrite Lz, Z, Uz. cbn [valid].
      destruct (find (valid md5 hz) (firstn 6 (net u))) as [[z|]|] eqn:Fi.
      2: { apply find_some in Fi. destruct Fi as [_ Fi]. cbn in Fi. discriminate Fi. }
      2: { exfalso. destruct A as (c & I & M). apply (find_none _ _ Fi) in I. cbn in I. now rewrite M, String.eqb_refl in I. }
      apply find_some in Fi. destruct Fi as [Iz Mz]. cbn in Mz. apply String.eqb_eq in Mz. destruct (G z Iz Mz) as [[c0 I0] All].
      cbn [value done traffic]. set (d1 := run [Move ["data"%string; coll] z] d). assert (Fz : find_file ["data"%string; coll] (files d1) = Some z) by apply (find_run_last _ z []). rewrite Fz.
      set (es := Make_folder (file_directory s) :: _).
      assert (R : exists c, find_file (file_relpath s) (files (run es d1)) = Some c /\ md5 c = h).
      { unfold es. change (run (Make_folder (file_directory s) :: ?l) d1) with (run l (apply (Make_folder (file_directory s)) d1)).
        change (run _ d1) with (run (map (fun m => Extract (file_directory s ++ fst m) (snd m)) (members z)) (apply (Make_folder (file_directory s)) d1)).
        rewrite relpath_dir, extract_find. destruct (find_file_some [name s] (rev (members z)) c0) as [c1 F1]; [now apply in_rev in I0|].
        rewrite F1. exists c1. split; [reflexivity|]. apply All. apply in_rev. now apply find_file_in. }
      destruct R as (c & Rc & Mc). split.
      - replace (existsb _ (files (run es d1))) with true; [reflexivity|]. symmetry. apply existsb_exists. exists (file_relpath s, c). split; [now apply find_file_in|]. cbn [fst].
        rewrite relpath_dir, prefix_app, last_last. apply String.eqb_refl.
      - exists c. split; [|exact Mc]. rewrite run_app, run_app. fold d1. cbn [run fold_left apply files]. rewrite find_drop. destruct (path_eqb_spec ["data"%string; coll] (file_relpath s)) as [E|_]; [|exact Rc].
        symmetry in E. now apply relpath_not_zip in E. }
    destruct F as [-> (c & Fc & Mc)]. cbn [value done]. unfold pooch_fetch. rewrite L, Fc. cbn [valid]. rewrite Mc, String.eqb_refl. reflexivity.
Qed.
Lemma prefix_split p : forall q, is_prefix p q = true -> exists below, q = p ++ below.
Proof.
  induction p as [|x p IH]; intros q H; [now exists q|]. destruct q as [|y q]; [discriminate H|]. cbn in H. apply andb_true_iff in H. destruct H as [E H].
  apply String.eqb_eq in E. subst y. destruct (IH q H) as [b ->]. now exists b.
Qed.
Lemma run_files es : forall (d : disk) q c, In (q, c) (files (run es d)) -> In (q, c) (files d) \/ exists e, In e es /\ touches e = Some q.
Proof.
  induction es as [|e es IH]; intros d q c H; [now left|]. change (run (e :: es) d) with (run es (apply e d)) in H. destruct (IH _ _ _ H) as [I|(e' & I & T)].
  2: { right. exists e'. split; [now right|exact T]. }
  assert (D : forall p l, In (q, c) (drop p l) -> In (q, c) l) by (intros p l I'; unfold drop in I'; now apply filter_In in I').
  destruct e as [p c0|p c0|p|p]; cbn in I.
  - destruct I as [I|I]; [right; exists (Move p c0); split; [now left|cbn; congruence]|left; now apply (D p)].
  - destruct I as [I|I]; [right; exists (Extract p c0); split; [now left|cbn; congruence]|left; now apply (D p)].
  - now left.
  - left. now apply (D p).
Qed.
(** If neither the folder of the dataset nor any archive has a file of its name, the call fails, whatever files of that name there are elsewhere. *)
Theorem C77_archive_without_the_file package r net s coll d h : lookup (file_relpath s) (hashes r) = Some h ->
  collection s = Some coll -> folder s <> [] -> name s <> coll -> find_file (file_relpath s) package = None ->
  (forall below c, In (file_directory s ++ below, c) (files d) -> last (file_directory s ++ below) ""%string <> name s) ->
  (forall z m, In m (members z) -> fst m <> [] /\ last (fst m) ""%string <> name s) ->
  forall allow, value (fetch true package r net s allow d) = None.
Proof.
  intros L Co NE NC P D M allow. unfold fetch_file_path. rewrite L, P, Co. cbn [negb].
  assert (V : valid md5 h (find_file (file_relpath s) (files d)) = false).
  { destruct (find_file (file_relpath s) (files d)) as [c|] eqn:F; [|reflexivity]. apply find_file_in in F. rewrite relpath_dir in F. apply D in F. now rewrite last_last in F. }
  rewrite V. cbn [negb andb]. destruct allow; [|reflexivity]. cbn [negb andb].
  replace (value (fetch_collection md5 members r net s coll d)) with (@None unit); [reflexivity|].
  unfold fetch_collection. set (f := pooch_fetch md5 r net ["data"%string; coll] d). destruct (value f) as [a|]; [|reflexivity]. cbn [value].
  set (d1 := run (done f) d). match goal with |- context[existsb _ (files (run ?l d1))] => set (es := l) end.
  replace (existsb _ (files (run es d1))) with false; [reflexivity|]. symmetry. apply not_true_is_false. intros X. apply existsb_exists in X. destruct X as ([q c] & I & X).
  cbn [fst] in X. apply andb_true_iff in X. destruct X as [X1 X2]. apply prefix_split in X1. destruct X1 as [below ->]. apply String.eqb_eq in X2.
  apply run_files in I. destruct I as [I|(e & Ie & T)].
  - unfold d1 in I. apply run_files in I. destruct I as [I|(e & Ie & T)]; [now apply (D below c)|].
    apply pooch_touches in Ie. rewrite Ie in T. assert (T2 : ["data"%string; coll] = file_directory s ++ below) by congruence. rewrite <- T2 in X2. cbn in X2. congruence.
  - unfold es in Ie. destruct (match a with Fetched => _ | Downloaded => _ end); [|contradiction]. destruct (find_file _ (files d1)) as [z|]; [|contradiction].
    destruct Ie as [<-|Ie]; [discriminate T|]. apply in_map_iff in Ie. destruct Ie as (m & <- & Im). destruct (M z m Im) as [M1 M2].
    destruct m as [m1 m2]. cbn in M1, M2. assert (T' : m1 = below) by (apply (app_inv_head (file_directory s)); cbn in T |- *; congruence). subst below. apply M2.
    destruct (exists_last M1) as (u & v & E). subst m1. rewrite app_assoc, last_last in X2. now rewrite last_last.
Qed.
(** In any case two calls are, whatever is on the disk, for example after a crash. *)
Theorem C77_archive_succeeds_the_second_time package r net net' s coll d h : lookup (file_relpath s) (hashes r) = Some h -> folder s <> [] ->
  collection s = Some coll -> find_file (file_relpath s) package = None -> honest_archive r net s coll h -> honest_archive r net' s coll h ->
  let first := fetch true package r net s true d in
  value first = Some In_cache \/ value (fetch true package r net' s true (run (done first) d)) = Some In_cache.
Proof.
  intros L NE Co P H H' first. destruct (value first) as [pl|] eqn:E.
  - left. destruct pl; [|reflexivity]. destruct (C77_integrity _ _ _ _ _ _ _ _ E) as (? & ? & _ & _ & X). congruence.
  - right. apply (C77_archive_succeeds package r net' s coll _ h); try assumption.
    unfold first, fetch_file_path in E |- *. rewrite L, P, Co, andb_false_r in E |- *. cbn [negb] in E |- *.
    destruct (valid md5 h (find_file (file_relpath s) (files d))) eqn:V.
    { cbn [value done run fold_left] in E. unfold pooch_fetch in E. rewrite L, V in E. discriminate. }
    set (f := fetch_collection md5 members r net s coll d) in *.
    assert (Z : find_file ["data"%string; coll] (files (run (done f) d)) = None).
    { unfold f, fetch_collection. destruct H as (hz & u & Lz & Uz & A & _). destruct (pooch_answers r net _ d hz u Lz Uz A) as [a Ea]. rewrite Ea. cbn [done].
      rewrite app_assoc, run_app. cbn [run fold_left apply files]. now rewrite find_drop, path_eqb_refl. }
    destruct (value f) as [[]|]; cbn [done]; [|exact Z]. rewrite run_app. rewrite run_untouched; [exact Z|].
    intros e I. apply pooch_touches in I. rewrite I. intros X. apply (relpath_not_zip s coll NE). congruence.
Qed.
(** Files of other datasets stay as they are, even if the program is stopped. *)
Theorem C77_other_files_stay installed package r net s allow d d' q : stopped (done (fetch installed package r net s allow d)) d d' ->
  q <> file_relpath s -> (forall below, q <> file_directory s ++ below) -> (forall coll, collection s = Some coll -> q <> ["data"%string; coll]) ->
  find_file q (files d') = find_file q (files d).
Proof.
  intros St N1 N2 N3.
  assert (T : forall e, In e (done (fetch installed package r net s allow d)) -> touches e <> Some q).
  { unfold fetch_file_path. destruct (lookup (file_relpath s) (hashes r)) as [h|]; [|contradiction]. destruct (find_file (file_relpath s) package); [contradiction|].
    destruct installed; [|contradiction]. cbn [negb]. destruct (negb (valid md5 h (find_file (file_relpath s) (files d))) && negb allow); [contradiction|].
    set (f := match collection s with Some coll => _ | None => _ end).
    assert (F : forall e, In e (done f) -> touches e <> Some q).
    { unfold f. destruct (collection s) as [coll|]; [|contradiction]. destruct (valid md5 h _); [contradiction|]. unfold fetch_collection.
      assert (PT : forall e, In e (done (pooch_fetch md5 r net ["data"%string; coll] d)) -> touches e <> Some q) by (intros e I; apply pooch_touches in I; rewrite I; intros X; injection X as X; now apply (N3 coll eq_refl)).
      destruct (value (pooch_fetch md5 r net ["data"%string; coll] d)); [|exact PT]. cbn [done]. intros e I. apply in_app_or in I. destruct I as [I|I]; [now apply PT|].
      apply in_app_or in I. destruct I as [I|I].
      - destruct (match a with Fetched => _ | Downloaded => _ end); [|contradiction]. destruct (find_file _ _) as [z|]; [|contradiction]. destruct I as [<-|I]; [discriminate|].
        apply in_map_iff in I. destruct I as (m & <- & _). intros X. assert (X' : file_directory s ++ fst m = q) by (cbn in X |- *; congruence). now apply (N2 (fst m)).
      - destruct I as [<-|[]]. cbn. intros X. injection X as X. now apply (N3 coll eq_refl). }
    destruct (value f); [|exact F]. cbn [done]. intros e I. apply in_app_or in I. destruct I as [I|I]; [now apply F|]. apply pooch_touches in I. rewrite I. congruence. }
  destruct St as [es1 es2 E|es1 p c es2 junk E]; apply run_untouched; intros e I; rewrite E in T.
  - apply T. apply in_or_app. now left.
  - apply in_app_or in I. destruct I as [I|[<-|[]]]; [apply T; apply in_or_app; now left|]. apply (T (Extract p c)). apply in_or_app. right. now left.
Qed.
End Proofs.

(** One call is not always enough: after a stop in the middle of the extraction the next call fails, and removes the archive. *)
Definition zip_members (c : string) : list (path * string) := if String.eqb c "zip" then [(["a.h5"%string], "pattern"%string)] else [].
Definition demo_registry : registry := Registry [(["data"; "ni"; "a.h5"], "pattern"); (["data"; "ni.zip"], "zip")]%string [(["data"; "ni.zip"], "https://zenodo.org")]%string.
Definition demo_set : dataset := Dataset ["ni"%string] "a.h5" (Some "ni.zip"%string).
Definition demo_net : network string := fun u => [None; Some "pa"%string; Some "zip"%string].
Theorem C77_archive_after_a_stop_refuted : exists d, 
  stopped (done (fetch_file_path (fun c => c) zip_members true [] demo_registry demo_net demo_set true (Disk [] []))) (Disk [] []) d /\
  value (fetch_file_path (fun c => c) zip_members true [] demo_registry demo_net demo_set true d) = None /\
  value (fetch_file_path (fun c => c) zip_members true [] demo_registry demo_net demo_set true (run (done (fetch_file_path (fun c => c) zip_members true [] demo_registry demo_net demo_set true d)) d)) = Some In_cache.
Proof.
  eexists. split; [apply (Stopped_within _ _ [Move ["data"; "ni.zip"] "zip"; Make_folder ["data"; "ni"]]%string ["data"; "ni"; "a.h5"]%string "pattern"%string [Remove ["data"; "ni.zip"]%string] "pat"%string); reflexivity|].
  now split.
Qed.
Example C77_hypotheses : honest_archive (fun c => c) zip_members demo_registry demo_net demo_set "ni.zip" "pattern" /\ folder demo_set <> [] /\
  value (fetch_file_path (fun c => c) zip_members true [] demo_registry demo_net demo_set true (Disk [] [])) = Some In_cache.
Proof.
  split; [|split; [discriminate|reflexivity]]. exists "zip"%string, "https://zenodo.org"%string. repeat split; try reflexivity.
  - exists "zip"%string. split; [cbn; tauto|reflexivity].
  - cbn in H. destruct H as [X|[X|[X|[]]]]; [discriminate|injection X as <-; discriminate|injection X as <-]. eexists. now left.
  - intros c I. cbn in H. destruct H as [X|[X|[X|[]]]]; [discriminate|injection X as <-; discriminate|injection X as <-]. destruct I as [I|[]]. now injection I as <-.
Qed.

(** A file of the same name elsewhere does not stand in for the one that is missing from the archive. *)
Example C77_without_the_file_case : value (fetch_file_path (fun c => c) (fun _ => [(["b.h5"%string], "x"%string)]) true [] demo_registry demo_net demo_set true
  (Disk [(["data"; "fe"; "a.h5"], "pattern")]%string [])) = None.
Proof. reflexivity. Qed.

(** clear_cache() empties the directory of the datasets if the variable has its value of the first use, *)
Lemma no_change {Content} default (cs : list (command Content)) : (forall v, ~ In (Set_variable v) cs) -> forall s : session Content,
  (remembered s = None \/ remembered s = Some (chosen default (variable s))) ->
  variable (commands default cs s) = variable s /\ (remembered (commands default cs s) = None \/ remembered (commands default cs s) = Some (chosen default (variable s))).
Proof.
  induction cs as [|c cs IH]; intros N s R; [now split|]. change (commands default (c :: cs) s) with (commands default cs (command_step default c s)).
  assert (V : variable (command_step default c s) = variable s) by (destruct c; cbn; [exfalso; apply (N v); now left|reflexivity|reflexivity]).
  assert (R' : remembered (command_step default c s) = None \/ remembered (command_step default c s) = Some (chosen default (variable s))).
  { destruct c as [v|f|]; cbn; [exact R| |exact R]. right. unfold directory. destruct R as [->| ->]; reflexivity. }
  rewrite <- V in R'. destruct (IH (fun v I => N v (or_intror I)) _ R') as [A B]. rewrite V in A, B. now split.
Qed.
Theorem C77_clear_cache_partial {Content} default (cs : list (command Content)) v ds : (forall v, ~ In (Set_variable v) cs) ->
  let s := command_step default Clear_cache (commands default cs (Session v None ds)) in directories s (directory default s) = Disk [] [].
Proof.
  intros N s. destruct (no_change default cs N (Session v None ds) (or_introl eq_refl)) as [A B]. unfold s. cbn. unfold directory, set_directory. cbn.
  cbn in A, B. rewrite A. destruct B as [-> | ->]; now rewrite String.eqb_refl.
Qed.
(** but not after a change. *)
Theorem C77_clear_cache_after_change_refuted {Content} default other (d : disk Content) ds v : chosen default v <> other ->
  let s := commands default [Use (fun _ => d); Set_variable (Some other); Clear_cache] (Session v None ds) in directories s (directory default s) = d.
Proof.
  intros N. cbn. unfold set_directory. cbn. change (directory default (Session v None ds)) with (chosen default v). destruct (String.eqb_spec (chosen default v) other); [contradiction|]. now rewrite String.eqb_refl.
Qed.
Print Assumptions C77_archive_succeeds_the_second_time.
