(** File names and titles of scans in h5ebsd files: property C117. *)
From Coq Require Import List Arith Ascii String Lia.
From Verif Require Import Model.ScanTitles.
Import ListNotations.
Local Open Scope nat_scope.
Local Open Scope list_scope.
Local Open Scope char_scope.

(** ** Specification *)

(** A path: a file in a directory ([] or ending with "/"), with its stem and what follows from the first dot on. *)
Definition file_at (path dir stem rest : text) : Prop :=
  path = dir ++ stem ++ rest /\ (dir = [] \/ exists d, dir = d ++ ["/"]) /\
  ~ In "/" stem /\ ~ In "." stem /\ ~ In "/" rest /\ (rest = [] \/ exists r, rest = "." :: r).
(** The HDF5 group of a scan: the top group of that name, or one in it. *)
Definition group_of (group scan : text) : Prop :=
  ~ In "/" scan /\ (group = "/" :: scan \/ exists r, group = "/" :: scan ++ "/" :: r).
Definition title_of (path group : text) : text := snd (filename_title path group).
(** The name and the scan, with a space in between. *)
Definition full_title (stem scan : text) : text := stem ++ [" "] ++ scan.

(** ** Lemmas *)

Lemma before_stop c s r : ~ In c s -> before c (s ++ c :: r) = s.
Proof.
  induction s as [|x s IH]; intros N; cbn; [now rewrite Ascii.eqb_refl|].
  destruct (Ascii.eqb_spec x c) as [->|]; [exfalso; apply N; now left|]. f_equal. apply IH. intros H. apply N. now right.
Qed.
Lemma before_all c s : ~ In c s -> before c s = s.
Proof.
  induction s as [|x s IH]; intros N; cbn; [reflexivity|].
  destruct (Ascii.eqb_spec x c) as [->|]; [exfalso; apply N; now left|]. f_equal. apply IH. intros H. apply N. now right.
Qed.
Lemma has_slash s : existsb (Ascii.eqb "/") s = true <-> In "/" s.
Proof.
  rewrite existsb_exists. split.
  - intros (x & I & E). apply Ascii.eqb_eq in E. now subst.
  - intros I. exists "/". split; [exact I|reflexivity].
Qed.
Lemma basename_plain s : ~ In "/" s -> basename s = s.
Proof.
  intros N. destruct s as [|x r]; [reflexivity|]. cbn [basename]. destruct (existsb _ _) eqn:E; [|reflexivity].
  apply has_slash in E. contradiction.
Qed.
Lemma basename_dir d s : ~ In "/" s -> basename (d ++ "/" :: s) = s.
Proof.
  intros N. induction d as [|x d IH].
  - cbn [app basename]. replace (existsb _ _) with true by reflexivity. now apply basename_plain.
  - cbn [app]. change (basename (x :: (d ++ "/" :: s))) with (if existsb (Ascii.eqb "/") (x :: d ++ "/" :: s) then basename (d ++ "/" :: s) else x :: d ++ "/" :: s).
    replace (existsb _ _) with true; [exact IH|]. symmetry. apply has_slash. right. apply in_or_app. right. now left.
Qed.
Lemma file_name path dir stem rest : file_at path dir stem rest -> before "." (basename path) = stem.
Proof.
  intros (-> & D & S1 & S2 & R1 & R2). assert (N : ~ In "/" (stem ++ rest)) by (rewrite in_app_iff; tauto).
  replace (basename (dir ++ stem ++ rest)) with (stem ++ rest).
  - destruct R2 as [->|[r ->]]; [rewrite app_nil_r; now apply before_all|now apply before_stop].
  - destruct D as [->|[d ->]]; [symmetry; now apply basename_plain|]. rewrite <- app_assoc. symmetry. now apply basename_dir.
Qed.
Lemma scan_name group scan : group_of group scan -> before "/" (tl group) = scan.
Proof. intros (N & [->|[r ->]]); cbn [tl]; [now apply before_all|now apply before_stop]. Qed.

Lemma title_eq path dir stem rest group scan : file_at path dir stem rest -> group_of group scan ->
  title_of path group = if (20 <? List.length (full_title stem scan))%nat then firstn 20 (full_title stem scan) ++ ["."; "."; "."] else full_title stem scan.
Proof.
  intros P G. unfold title_of, filename_title. cbn [snd]. rewrite (file_name _ _ _ _ P), (scan_name _ _ G). reflexivity.
Qed.

(** ** Theorems *)

(** The name kept is that of the file without its directory and without everything from its first dot on, whatever the scan. *)
Theorem C117_file_name path dir stem rest group : file_at path dir stem rest -> fst (filename_title path group) = stem.
Proof. intros P. exact (file_name _ _ _ _ P). Qed.
Print Assumptions C117_file_name.

(** The title is the name and the scan, if they have at most 20 characters; otherwise it is 23 characters long, 20 of them
    from the start of it. *)
Theorem C117_title path dir stem rest group scan : file_at path dir stem rest -> group_of group scan ->
  ((List.length (full_title stem scan) <= 20)%nat -> title_of path group = full_title stem scan) /\
  ((20 < List.length (full_title stem scan))%nat -> exists kept lost, full_title stem scan = kept ++ lost /\ List.length kept = 20 /\
     title_of path group = kept ++ ["."; "."; "."]).
Proof.
  intros P G. rewrite (title_eq _ _ _ _ _ _ P G). destruct (Nat.ltb_spec 20 (List.length (full_title stem scan))) as [L|L]; (split; [intros H; try lia|intros H; try lia]).
  - exists (firstn 20 (full_title stem scan)), (skipn 20 (full_title stem scan)). split; [symmetry; apply firstn_skipn|].
    split; [rewrite firstn_length; lia|reflexivity].
  - reflexivity.
Qed.
Print Assumptions C117_title.

(** Two scans of a file have the same title exactly if they are the same, or if both titles are cut and agree that far. *)
Theorem C117_same_title_iff path dir stem rest g1 g2 s1 s2 : file_at path dir stem rest -> group_of g1 s1 -> group_of g2 s2 ->
  title_of path g1 = title_of path g2 <->
  s1 = s2 \/ (20 < List.length (full_title stem s1))%nat /\ (20 < List.length (full_title stem s2))%nat /\
             firstn (19 - List.length stem) s1 = firstn (19 - List.length stem) s2.
Proof.
  intros P G1 G2. rewrite (title_eq _ _ _ _ _ _ P G1), (title_eq _ _ _ _ _ _ P G2).
  assert (FN : forall s, (20 < List.length (full_title stem s))%nat -> firstn 20 (full_title stem s) = firstn 20 (stem ++ [" "]) ++ firstn (19 - List.length stem) s).
  { intros s _. unfold full_title. rewrite app_assoc, firstn_app.
    replace (20 - List.length (stem ++ [" "]))%nat with (19 - List.length stem)%nat by (rewrite app_length; cbn [List.length]; lia). reflexivity. }
  destruct (Nat.ltb_spec 20 (List.length (full_title stem s1))) as [A|A], (Nat.ltb_spec 20 (List.length (full_title stem s2))) as [B|B].
  - rewrite (FN s1 A), (FN s2 B). split.
    + intros E. right. apply app_inv_tail in E. apply app_inv_head in E. tauto.
    + intros [->|(_ & _ & ->)]; reflexivity.
  - split; [intros E|intros [C|(_ & C & _)]; [subst s2|]; lia]. apply (f_equal (@List.length ascii)) in E. rewrite app_length, firstn_length in E. cbn [List.length] in E. lia.
  - split; [intros E|intros [C|(C & _)]; [subst s2|]; lia]. apply (f_equal (@List.length ascii)) in E. rewrite app_length, firstn_length in E. cbn [List.length] in E. lia.
  - split; [intros E|intros [->|(C & _)]; [reflexivity|lia]]. left. unfold full_title in E. apply app_inv_head in E. now apply app_inv_head in E.
Qed.
Print Assumptions C117_same_title_iff.

(** So the title of a file with a name of 20 characters or more does not tell its scans apart. *)
Theorem C117_long_name_refuted path dir stem rest g1 g2 s1 s2 : file_at path dir stem rest -> (20 <= List.length stem)%nat ->
  group_of g1 s1 -> group_of g2 s2 -> title_of path g1 = title_of path g2.
Proof.
  intros P L G1 G2. rewrite (C117_same_title_iff _ _ _ _ _ _ _ _ P G1 G2). right.
  unfold full_title. rewrite !app_length. cbn [List.length]. replace (19 - List.length stem)%nat with 0%nat by lia. repeat split; cbn; lia.
Qed.
Print Assumptions C117_long_name_refuted.

(** And files of one directory that differ after a first dot in their names have the same name and titles. *)
Theorem C117_dots_refuted dir stem r1 r2 group : (dir = [] \/ exists d, dir = d ++ ["/"]) -> ~ In "/" stem -> ~ In "." stem -> ~ In "/" r1 -> ~ In "/" r2 ->
  filename_title (dir ++ stem ++ "." :: r1) group = filename_title (dir ++ stem ++ "." :: r2) group.
Proof.
  intros D S1 S2 N1 N2.
  assert (P : forall r, ~ In "/" r -> file_at (dir ++ stem ++ "." :: r) dir stem ("." :: r)).
  { intros r N. repeat split; try assumption; [intros [C|C]; [discriminate|contradiction]|right; now exists r]. }
  unfold filename_title. now rewrite (file_name _ _ _ _ (P r1 N1)), (file_name _ _ _ _ (P r2 N2)).
Qed.
Print Assumptions C117_dots_refuted.

(** ** Cases *)

Definition chars (s : string) : text := list_ascii_of_string s.
Example C117_case : title_of (chars "/data/nickel.h5") (chars "/Scan 1") = chars "nickel Scan 1" /\
  title_of (chars "/data/nickel_annealed_800C.h5") (chars "/Scan 1") = chars "nickel_annealed_800C..." /\
  title_of (chars "/data/nickel_annealed_800C.h5") (chars "/Scan 2") = chars "nickel_annealed_800C..." /\
  fst (filename_title (chars "map_0.5um.h5") (chars "/Scan 1")) = chars "map_0" /\
  fst (filename_title (chars "map_0.2um.h5") (chars "/Scan 1")) = chars "map_0".
Proof. repeat split. Qed.
Example C117_case_file : file_at (chars "/data/nickel.h5") (chars "/data/") (chars "nickel") (chars ".h5") /\ group_of (chars "/Scan 1/EBSD") (chars "Scan 1").
Proof.
  split; [split; [reflexivity|]; split; [right; exists (chars "/data"); reflexivity|]|].
  - cbn. repeat split; try (right; eexists; reflexivity); intuition discriminate.
  - split; [cbn; intuition discriminate|right; exists (chars "EBSD"); reflexivity].
Qed.
