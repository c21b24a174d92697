(** C51: labels of loaded signals. *)
From Coq Require Import String List Arith Bool Lia.
From Verif Require Import Model.LoadLabels.
Import ListNotations.
Local Open Scope string_scope.
Local Open Scope list_scope.

(** A file in directory d named stem.ext, where stem has a character which is not a dot. *)
Definition proper (stem : list string) : Prop := exists s, In s stem /\ s <> "".

Lemma splitext_proper : forall stem ext, proper stem -> splitext (stem ++ [ext]) = (stem, ext).
Proof.
  intros stem ext (s & I & N). unfold splitext. rewrite removelast_last, last_last.
  destruct (forallb (String.eqb "") stem) eqn:F; [|reflexivity].
  rewrite forallb_forall in F. apply F in I. apply String.eqb_eq in I. now subst s.
Qed.
Lemma splitext_single : forall s, splitext [s] = ([s], "").
Proof. reflexivity. Qed.

Section C.
Context {Dir : Type} (cwd : Dir).

Lemma labels_length : forall n (p : path Dir), length (labels cwd n p) = n.
Proof. induction n; intros; cbn [labels]; [reflexivity|]. destruct (splitext (base p)). cbn [length]. now rewrite IHn. Qed.

(** The first signal has the label of its file. *)
Theorem C51_first_signal : forall n d stem ext, proper stem ->
  hd_error (labels cwd (S n) (Path (Some d) (stem ++ [ext]))) = Some (Label d stem ext).
Proof. intros. cbn [labels base]. rewrite splitext_proper by assumption. reflexivity. Qed.

(** All others get the current directory, wherever the file is. *)
Theorem C51_other_signals_folder_refuted : forall n d stem ext i l,
  nth_error (labels cwd n (Path (Some d) (stem ++ [ext]))) (S i) = Some l -> folder l = cwd.
Proof.
  intros [|n] d stem ext i l; [discriminate|]. cbn [labels base]. destruct (splitext (stem ++ [ext])) as [st e]. cbn [nth_error].
  clear. revert st i. induction n as [|n IH]; intros st i; cbn [labels base]; [destruct i; discriminate|].
  destruct (splitext st) as [st' e']. destruct i as [|i]; cbn [nth_error].
  - now intros [= <-].
  - apply IH.
Qed.
(** With no further dot in the name they lose the extension. *)
Theorem C51_other_signals_extension_refuted : forall n d name ext i, name <> "" -> (i < n)%nat ->
  nth_error (labels cwd (S n) (Path (Some d) [name; ext])) (S i) = Some (Label cwd [name] "").
Proof.
  intros n d name ext i N H. cbn [labels base].
  change [name; ext] with ([name] ++ [ext]). rewrite splitext_proper; [|exists name; split; [now left|exact N]].
  cbn [nth_error]. revert i H. induction n as [|n IH]; intros i H; [lia|].
  cbn [labels base]. rewrite splitext_single. destruct i as [|i]; cbn [nth_error]; [reflexivity|]. apply IH. lia.
Qed.
(** With a further dot the second signal even gets another name. *)
Theorem C51_other_signals_name_refuted : forall n d s1 s2 ext, s1 <> "" -> 
  nth_error (labels cwd (S (S n)) (Path (Some d) [s1; s2; ext])) 1 = Some (Label cwd [s1] s2).
Proof.
  intros n d s1 s2 ext N. cbn [labels base].
  change [s1; s2; ext] with ([s1; s2] ++ [ext]). rewrite splitext_proper; [|exists s1; split; [now left|exact N]].
  cbn [nth_error base]. change [s1; s2] with ([s1] ++ [s2]). rewrite splitext_proper; [|exists s1; split; [now left|exact N]]. reflexivity.
Qed.

(** save() without a name after loading one scan from d/name.ext (name without dots): in the same directory, but always
    as name.h5, whatever the extension. *)
Theorem C51_save_in_same_directory_partial : forall d name ext l, name <> "" -> ext <> "hspy" -> ext <> "zspy" ->
  labels cwd 1 (Path (Some d) [name; ext]) = [l] -> default_target l = File d [name; "h5"].
Proof.
  intros d name ext l N H Z E. cbn [labels base] in E. change [name; ext] with ([name] ++ [ext]) in E.
  rewrite splitext_proper in E; [|exists name; split; [now left|exact N]]. injection E as <-.
  unfold default_target. cbn [extension folder filename abs_dir dir].
  assert (X : existsb (String.eqb ext) ["hspy"; "zspy"] = false).
  { cbn. destruct (String.eqb_spec ext "hspy"); [contradiction|]. destruct (String.eqb_spec ext "zspy"); [contradiction|]. reflexivity. }
  rewrite X. rewrite splitext_single. reflexivity.
Qed.
(** So a NORDIF file is not saved as one, although the label says so. *)
Theorem C51_extension_of_label_ignored_refuted : forall d name, name <> "" ->
  exists l, labels cwd 1 (Path (Some d) [name; "dat"]) = [l] /\ extension l = "dat" /\ default_target l = File d [name; "h5"].
Proof.
  intros d name N. exists (Label d [name] "dat"). split; [|split].
  - cbn [labels base]. change [name; "dat"] with ([name] ++ ["dat"]). rewrite splitext_proper; [reflexivity|]. exists name; split; [now left|exact N].
  - reflexivity.
  - apply C51_save_in_same_directory_partial with "dat"; try discriminate; [exact N|].
    cbn [labels base]. change [name; "dat"] with ([name] ++ ["dat"]). rewrite splitext_proper; [reflexivity|]. exists name; split; [now left|exact N].
Qed.
(** With dots in the name, the part after the last one decides: it is taken for the extension of the file to write. *)
Theorem C51_dotted_names_refuted : forall d stem e ext l, proper stem -> e <> "" -> ext <> "hspy" -> ext <> "zspy" ->
  labels cwd 1 (Path (Some d) ((stem ++ [e]) ++ [ext])) = [l] ->
  (In e ["h5"; "hdf5"; "h5ebsd"; "dat"] -> default_target l = File d (stem ++ [e])) /\
  (~ In e ["h5"; "hdf5"; "h5ebsd"; "dat"] -> default_target l = Unsupported).
Proof.
  intros d stem e ext l P E H Z L. cbn [labels base] in L.
  rewrite splitext_proper in L by (destruct P as (s & I & N); exists s; split; [apply in_or_app; now left|exact N]). injection L as <-.
  unfold default_target. cbn [extension folder filename abs_dir dir].
  assert (X : existsb (String.eqb ext) ["hspy"; "zspy"] = false).
  { cbn. destruct (String.eqb_spec ext "hspy"); [contradiction|]. destruct (String.eqb_spec ext "zspy"); [contradiction|]. reflexivity. }
  rewrite X, splitext_proper by exact P. cbn [snd]. destruct (String.eqb_spec e ""); [contradiction|].
  split; intros I; (destruct (existsb (String.eqb e) _) eqn:B; [try reflexivity|try reflexivity]).
  - assert (B' : existsb (String.eqb e) ["h5"; "hdf5"; "h5ebsd"; "dat"] = true) by (apply existsb_exists; exists e; split; [exact I|apply String.eqb_refl]). congruence.
  - apply existsb_exists in B as (x & J & K). apply String.eqb_eq in K. subst x. contradiction.
Qed.
End C.

Example C51_case : labels "/home" 3 (Path (Some "/data") ["scan"; "h5"]) =
  [Label "/data" ["scan"] "h5"; Label "/home" ["scan"] ""; Label "/home" ["scan"] ""] := eq_refl.
Example C51_case_dots : labels "/home" 2 (Path (Some "/data") ["v1"; "scan"; "h5"]) =
  [Label "/data" ["v1"; "scan"] "h5"; Label "/home" ["v1"] "scan"] := eq_refl.
Example C51_case_hidden : labels "/home" 1 (Path None [""; "scan"; "h5"]) = [Label "/home" [""; "scan"] "h5"] := eq_refl.
Print Assumptions C51_other_signals_folder_refuted.
Example C51_case_dots_save : map default_target (labels "/home" 1 (Path (Some "/data") ["scan"; "v2"; "h5"])) = [Unsupported]
  /\ map default_target (labels "/home" 1 (Path (Some "/data") ["scan"; "dat"; "h5"])) = [File "/data" ["scan"; "dat"]].
Proof. split; reflexivity. Qed.
