(** The file a signal belongs to (property C74). *)
From Coq Require Import Ascii String List Arith Bool Lia Permutation.
From Verif Require Import Model.Binary Model.Hdf5 Model.FilePaths.
From Verif Require Model.Detector.
Import ListNotations.
Local Open Scope list_scope.
Local Open Scope string_scope.

(** ** Specification *)
Fixpoint dotless (s : string) : Prop := match s with EmptyString => True | String c r => c <> "."%char /\ dotless r end.
(** Directory in which a path is found: without "." and "..". *)
Definition plain (d : list string) : Prop := Forall (fun s => s <> "." /\ s <> "..") d.
Definition place (cwd : list string) (p : path) : list string := if absolute p then directories p else cwd ++ directories p.
(** [name] is [st], which has more than dots, a dot and [ext], which has none. *)
Definition has_extension (name st ext : string) : Prop := name = st ++ "." ++ ext /\ only_dots st = false /\ dotless ext.
(** The file that a signal remembers *)
Definition remembers (r : remembered) (d : list string) (name : string) : Prop := folder r = d /\ name = stem r ++ "." ++ extension r.

(** The directory reached from a directory by following names: "." stays, ".." goes to the directory above (the root is above itself). *)
Inductive walk : list string -> list string -> list string -> Prop :=
| walk_end d : walk d [] d
| walk_here d l e : walk d l e -> walk d ("." :: l) e
| walk_up d x l e : walk d l e -> walk (d ++ [x]) (".." :: l) e
| walk_root l e : walk [] l e -> walk [] (".." :: l) e
| walk_into d x l e : x <> "." -> x <> ".." -> walk (d ++ [x]) l e -> walk d (x :: l) e.

(** ** Proofs *)
Lemma normalise_walk l : forall up, walk (rev up) l (normalise up l).
Proof.
  induction l as [|d r IH]; intros up; cbn [normalise]; [constructor|].
  destruct (String.eqb_spec d "."); [subst; constructor; apply IH|]. destruct (String.eqb_spec d "..").
  - subst. destruct up as [|x up]; cbn [tl rev]; [apply walk_root, (IH [])|apply walk_up, IH].
  - apply walk_into; [assumption|assumption|]. exact (IH (d :: up)).
Qed.
Lemma dotless_none s : dotless s -> last_dot s = None.
Proof. induction s as [|c r IH]; [reflexivity|]. intros [N D]. cbn. rewrite (IH D). now destruct (Ascii.eqb_spec c "."). Qed.
Lemma last_dot_at a b : dotless b -> last_dot (a ++ "." ++ b) = Some (a, b).
Proof. intros D. induction a as [|c r IH]; cbn; [now rewrite (dotless_none b D)|]. cbn in IH. now rewrite IH. Qed.
Lemma splitext_at name st ext : has_extension name st ext -> splitext name = (st, "." ++ ext).
Proof. intros (-> & O & D). unfold splitext. rewrite (last_dot_at _ _ D), O. reflexivity. Qed.
Lemma splitext_none s : dotless s -> splitext s = (s, "").
Proof. intros D. unfold splitext. now rewrite (dotless_none s D). Qed.
Lemma remove_dots_dotless s : dotless s -> remove_dots s = s.
Proof. induction s as [|c r IH]; [reflexivity|]. intros [N D]. cbn. destruct (Ascii.eqb_spec c "."); [contradiction|]. now rewrite IH. Qed.
Lemma dotless_only s : dotless s -> s <> "" -> only_dots s = false.
Proof. destruct s as [|c r]; [congruence|]. intros [N _] _. cbn. now destruct (Ascii.eqb_spec c "."). Qed.
Lemma normalise_plain l : forall up, plain l -> normalise up l = (rev up ++ l)%list.
Proof.
  induction l as [|d r IH]; intros up H; [cbn; now rewrite app_nil_r|]. inversion H as [|? ? [N1 N2] Hr]; subst. cbn.
  destruct (String.eqb_spec d "."); [contradiction|]. destruct (String.eqb_spec d ".."); [contradiction|]. rewrite IH by exact Hr. cbn. now rewrite <- app_assoc.
Qed.
Lemma abspath_plain cwd p : plain (place cwd p) -> abspath cwd p = (place cwd p, file_name p).
Proof. intros H. unfold abspath. fold (place cwd p). now rewrite normalise_plain. Qed.

(** A signal loaded from a file remembers the file, and so does the first of several. *)
Theorem C74_first_signal_remembers cwd n p st ext :
  plain (place cwd p) -> has_extension (file_name p) st ext ->
  exists r l, load_loop cwd (S n) p = r :: l /\ remembers r (place cwd p) (file_name p) /\ stem r = st /\ extension r = ext.
Proof.
  intros P H. cbn [load_loop]. rewrite (abspath_plain _ _ P), (splitext_at _ _ _ H). destruct H as (E & O & D).
  eexists. eexists. split; [reflexivity|]. change (remove_dots ("." ++ ext)) with (remove_dots ext). rewrite (remove_dots_dotless _ D).
  split; [split; [reflexivity|exact E]|split; reflexivity].
Qed.

(** All further signals from the same file remember a file in the current directory, without the extension. *)
Lemma later_signals cwd n : forall q st, plain cwd -> dotless st -> absolute q = false -> directories q = [] -> file_name q = st ->
  load_loop cwd n q = repeat (Remembered cwd st "") n.
Proof.
  induction n as [|n IH]; intros q st P D A B C; [reflexivity|]. cbn [load_loop]. rewrite abspath_plain by (unfold place; rewrite A, B, app_nil_r; exact P).
  rewrite C, (splitext_none _ D). unfold place. rewrite A, B, app_nil_r. cbn [repeat remove_dots]. f_equal. now apply IH.
Qed.
Theorem C74_further_signals_refuted cwd n p st ext i r :
  plain cwd -> plain (place cwd p) -> has_extension (file_name p) st ext -> dotless st ->
  nth_error (load_loop cwd n p) (S i) = Some r -> r = Remembered cwd st "".
Proof.
  intros C P H D. destruct n as [|n]; [discriminate|]. cbn [load_loop]. rewrite (abspath_plain _ _ P), (splitext_at _ _ _ H).
  cbn [nth_error]. rewrite (later_signals cwd n (Path false [] st) st C D eq_refl eq_refl eq_refl). intros E. apply nth_error_In in E. now apply repeat_spec in E.
Qed.

(** A name with an extension of a format is the file written, in this format, and the signal remembers it; the order in
    which the writers are registered does not matter. *)
Lemma find_perm ws : Permutation ws writers -> forall e w, In w writers -> mem e (snd w) = true -> find (fun w : string * list string => mem e (snd w)) ws = Some w.
Proof.
  intros P e w I M.
  assert (U : forall w', In w' ws -> mem e (snd w') = true -> w' = w).
  { intros w' I' M'. apply (Permutation_in _ P) in I'. cbn in I, I'. unfold mem in M, M'. apply existsb_exists in M, M'. destruct M as (x & X & Ex), M' as (y & Y & Ey).
    apply String.eqb_eq in Ex, Ey. subst x y. destruct I as [<-|[<-|[]]], I' as [<-|[<-|[]]]; try reflexivity; cbn in X, Y; exfalso;
    repeat (destruct X as [<-|X]; [repeat (destruct Y as [Y|Y]; [discriminate|]); destruct Y|]); destruct X. }
  destruct (find _ ws) as [w'|] eqn:F.
  - apply find_some in F. f_equal. apply U; tauto.
  - exfalso. pose proof (find_none _ _ F w (Permutation_in _ (Permutation_sym P) I)) as N. cbn beta in N. congruence.
Qed.
Lemma save_to_at ws cwd p st ext w sig nav : Permutation ws writers -> has_extension (file_name p) st ext -> ext <> "" -> In w writers -> mem (Detector.lower ext) (snd w) = true ->
  sig = 2%nat -> (nav <= 2)%nat -> plain (place cwd p) -> save_to ws cwd p sig nav = Written (fst w) (place cwd p) (file_name p).
Proof.
  intros P H N I M -> L Pl. unfold save_to. rewrite (splitext_at _ _ _ H). cbn [snd]. change (drop1 ("." ++ ext)) with ext.
  destruct (String.eqb_spec ext ""); [contradiction|]. rewrite (find_perm ws P _ w I M).
  unfold can_write. apply Nat.leb_le in L. rewrite L. cbn [Nat.eqb andb]. now rewrite (abspath_plain _ _ Pl).
Qed.
Lemma save_to_none ws cwd p sig nav : Permutation ws writers -> dotless (file_name p) -> file_name p <> "" -> sig = 2%nat -> (nav <= 2)%nat -> plain (place cwd p) ->
  save_to ws cwd p sig nav = Written "kikuchipy_h5ebsd" (place cwd p) (file_name p ++ ".h5").
Proof.
  intros P D N -> L Pl. unfold save_to. rewrite (splitext_none _ D). cbn [snd drop1]. cbn [String.eqb].
  change (Detector.lower "h5") with "h5". rewrite (find_perm ws P "h5" ("kikuchipy_h5ebsd", ["h5"; "hdf5"; "h5ebsd"]) ltac:(now left) eq_refl). unfold can_write. apply Nat.leb_le in L. rewrite L. cbn [Nat.eqb andb fst].
  unfold abspath. cbn [absolute directories file_name fst snd]. fold (place cwd p). now rewrite normalise_plain.
Qed.
Lemma suffix_at name st ext : has_extension name st ext -> suffix1 name = ext.
Proof. intros (-> & O & D). unfold suffix1. rewrite (last_dot_at _ _ D). destruct (String.eqb_spec st ""); [subst; discriminate O|reflexivity]. Qed.
Lemma suffix_none s : dotless s -> suffix1 s = "".
Proof. intros D. unfold suffix1. now rewrite (dotless_none s D). Qed.
Lemma not_hyperspy e w : In w writers -> mem (Detector.lower e) (snd w) = true -> mem (Detector.lower e) ["hspy"; "zspy"] = false.
Proof.
  intros I M. unfold mem in M. apply existsb_exists in M. destruct M as (x & X & E). apply String.eqb_eq in E. rewrite E.
  destruct I as [<-|[<-|[]]]; cbn in X; repeat (destruct X as [<-|X]; [reflexivity|]); destruct X.
Qed.

Theorem C74_named_file_written ws cwd r original p st ext w nav :
  Permutation ws writers -> plain (place cwd p) -> has_extension (file_name p) st ext -> ext <> "" ->
  In w writers -> In (Detector.lower ext) (snd w) -> (nav <= 2)%nat ->
  save ws cwd r original (Some p) None 2 nav = Written (fst w) (place cwd p) (file_name p) /\
  remembers (remember_saved cwd p) (place cwd p) (file_name p).
Proof.
  intros P Pl H N I M L.
  assert (M' : mem (Detector.lower ext) (snd w) = true) by (unfold mem; apply existsb_exists; exists (Detector.lower ext); split; [exact M|apply String.eqb_refl]).
  split.
  - unfold save. rewrite (suffix_at _ _ _ H), (not_hyperspy _ _ I M'). now apply (save_to_at ws cwd p st ext w).
  - unfold remember_saved. rewrite (splitext_at _ _ _ H). cbn [snd]. change (drop1 ("." ++ ext)) with ext. destruct (String.eqb_spec ext ""); [contradiction|].
    rewrite (abspath_plain _ _ Pl), (splitext_at _ _ _ H). split; [reflexivity|]. cbn [stem extension fst]. apply H.
Qed.
(** Without an extension in the name: the format of kikuchipy. *)
Theorem C74_no_extension ws cwd r original p nav :
  Permutation ws writers -> plain (place cwd p) -> dotless (file_name p) -> file_name p <> "" -> (nav <= 2)%nat ->
  save ws cwd r original (Some p) None 2 nav = Written "kikuchipy_h5ebsd" (place cwd p) (file_name p ++ ".h5") /\
  remembers (remember_saved cwd p) (place cwd p) (file_name p ++ ".h5").
Proof.
  intros P Pl D N L. split.
  - unfold save. rewrite (suffix_none _ D). change (mem (Detector.lower "") ["hspy"; "zspy"]) with false. now apply save_to_none.
  - unfold remember_saved. rewrite (splitext_none _ D). cbn [snd drop1 String.eqb]. unfold abspath. cbn [absolute directories file_name fst snd]. fold (place cwd p). rewrite (normalise_plain _ _ Pl).
    change (file_name p ++ "." ++ "h5") with (file_name p ++ ".h5"). rewrite (splitext_at (file_name p ++ ".h5") (file_name p) "h5").
    + split; reflexivity.
    + split; [reflexivity|]. split; [now apply dotless_only|]. simpl. repeat split; discriminate.
Qed.
(** Other extensions are refused, and so are signals with other dimensions. *)
Theorem C74_unknown_extension_refused ws cwd r original p st ext sig nav :
  Permutation ws writers -> has_extension (file_name p) st ext -> ext <> "" ->
  ~ In (Detector.lower ext) ["h5"; "hdf5"; "h5ebsd"; "dat"; "hspy"; "zspy"] ->
  save ws cwd r original (Some p) None sig nav = Raises.
Proof.
  intros P H N U. unfold save. rewrite (suffix_at _ _ _ H).
  assert (X : forall l, incl l ["h5"; "hdf5"; "h5ebsd"; "dat"; "hspy"; "zspy"] -> mem (Detector.lower ext) l = false).
  { intros l I. destruct (mem (Detector.lower ext) l) eqn:M; [|reflexivity]. unfold mem in M. apply existsb_exists in M. destruct M as (x & J & E). apply String.eqb_eq in E.
    destruct U. rewrite E. now apply I. }
  rewrite X by (intros x; simpl; tauto). unfold save_to. rewrite (splitext_at _ _ _ H). cbn [snd]. change (drop1 ("." ++ ext)) with ext. destruct (String.eqb_spec ext ""); [contradiction|].
  destruct (find _ ws) as [w|] eqn:F; [|reflexivity]. exfalso. apply find_some in F. destruct F as [I M]. apply (Permutation_in _ P) in I. rewrite X in M; [discriminate|].
  destruct I as [<-|[<-|[]]]; intros x; simpl; tauto.
Qed.
Theorem C74_other_dimensions_refused ws cwd r original p sig nav o :
  Permutation ws writers -> sig <> 2%nat \/ (2 < nav)%nat -> save ws cwd r original (Some p) None sig nav = o -> o = Raises \/ o = By_hyperspy.
Proof.
  intros P D <-. unfold save. destruct (mem _ _); [now right|]. left. unfold save_to. destruct (_ =? "")%string; destruct (find _ ws); try reflexivity;
  replace (can_write sig nav) with false; try reflexivity; unfold can_write; symmetry; apply andb_false_iff; rewrite Nat.eqb_neq, Nat.leb_gt; exact D.
Qed.

(** Without a name, save() is documented to write to the file that the signal is from. It does so for files with the
    extension "h5" and no other dot. *)
Theorem C74_saved_again_partial ws cwd r original nav :
  Permutation ws writers -> plain (folder r) -> dotless (stem r) -> stem r <> "" -> extension r = "h5" -> (nav <= 2)%nat ->
  exists name, save ws cwd (Some r) original None None 2 nav = Written "kikuchipy_h5ebsd" (folder r) name /\ remembers r (folder r) name.
Proof.
  intros P Pl D N E L. exists (stem r ++ ".h5"). split; [|split; [reflexivity|now rewrite E]].
  unfold save. rewrite E. change (mem (Detector.lower "h5") ["hspy"; "zspy"]) with false. now apply (save_to_none ws cwd (Path true (folder r) (stem r)) 2 nav P).
Qed.
(** The extension, remembered or given, is not used: all other files without further dots are saved again to a file with extension "h5". *)
Theorem C74_extension_unused_refuted ws cwd r original ext nav :
  Permutation ws writers -> plain (folder r) -> dotless (stem r) -> stem r <> "" -> (nav <= 2)%nat ->
  ~ In (Detector.lower (extension r)) ["hspy"; "zspy"] -> ~ In (Detector.lower ext) ["hspy"; "zspy"] ->
  save ws cwd (Some r) original None (Some ext) 2 nav = Written "kikuchipy_h5ebsd" (folder r) (stem r ++ ".h5") /\
  save ws cwd (Some r) original None None 2 nav = Written "kikuchipy_h5ebsd" (folder r) (stem r ++ ".h5").
Proof.
  intros P Pl D N L U1 U2.
  assert (X : forall e, ~ In (Detector.lower e) ["hspy"; "zspy"] -> mem (Detector.lower e) ["hspy"; "zspy"] = false).
  { intros e U. destruct (mem _ _) eqn:M; [|reflexivity]. unfold mem in M. apply existsb_exists in M. destruct M as (x & J & E). apply String.eqb_eq in E. destruct U. now rewrite E. }
  pose proof (save_to_none ws cwd (Path true (folder r) (stem r)) 2 nav P D N eq_refl L Pl) as S0. unfold save. split.
  - destruct (ext =? "")%string; rewrite X; assumption.
  - rewrite X; assumption.
Qed.
(** With further dots: a file is refused, or another file in another format is written. *)
Theorem C74_saved_again_refuted ws cwd : Permutation ws writers ->
  (forall d, plain d -> exists r, load_loop cwd 1 (Path true d "scan.dat") = [r] /\ save ws cwd (Some r) None None None 2 2 = Written "kikuchipy_h5ebsd" d "scan.h5") /\
  (forall d, plain d -> exists r, load_loop cwd 1 (Path true d "map.1.h5") = [r] /\ save ws cwd (Some r) None None None 2 2 = Raises) /\
  (forall d, plain d -> exists r, load_loop cwd 1 (Path true d "map.dat.h5") = [r] /\ save ws cwd (Some r) None None None 2 2 = Written "nordif" d "map.dat").
Proof.
  intros P.
  assert (F : forall name st ext, has_extension name st ext -> forall d, plain d -> load_loop cwd 1 (Path true d name) = [Remembered d st ext]).
  { intros name st ext H d Pl. cbn [load_loop]. rewrite (abspath_plain cwd (Path true d name)) by exact Pl. cbn [file_name place absolute directories]. rewrite (splitext_at _ _ _ H).
    change (remove_dots ("." ++ ext)) with (remove_dots ext). rewrite remove_dots_dotless by apply H. reflexivity. }
  split; [|split]; intros d Pl; eexists.
  - split; [apply (F _ "scan" "dat"); [|exact Pl]; repeat split; discriminate|].
    apply (C74_extension_unused_refuted ws cwd (Remembered d "scan" "dat") None "" 2 P Pl); try (simpl; intuition discriminate); try discriminate; try lia.
  - split; [apply (F _ "map.1" "h5"); [|exact Pl]; repeat split; discriminate|].
    unfold save. cbn [folder stem extension]. change (mem (Detector.lower "h5") ["hspy"; "zspy"]) with false. cbn iota.
    unfold save_to. cbn [file_name]. change (drop1 (snd (splitext "map.1"))) with "1". cbn [String.eqb Ascii.eqb Bool.eqb].
    destruct (find _ ws) as [w|] eqn:E; [|reflexivity]. exfalso. apply find_some in E. destruct E as [I M]. apply (Permutation_in _ P) in I. destruct I as [<-|[<-|[]]]; discriminate M.
  - split; [apply (F _ "map.dat" "h5"); [|exact Pl]; repeat split; discriminate|].
    unfold save. cbn [folder stem extension]. change (mem (Detector.lower "h5") ["hspy"; "zspy"]) with false. cbn iota.
    apply (save_to_at ws cwd (Path true d "map.dat") "map" "dat" ("nordif", ["dat"]) 2 2 P); try reflexivity; try exact Pl; try lia; [|discriminate|simpl; auto]. repeat split; discriminate.
Qed.
(** The second scan of a file in another directory is saved again to the current directory. *)
Theorem C74_second_scan_refuted ws cwd d n : Permutation ws writers -> plain cwd -> plain d ->
  exists r1 r2 l, load_loop cwd (2 + n) (Path true d "scans.h5") = r1 :: r2 :: l /\
    save ws cwd (Some r1) None None None 2 2 = Written "kikuchipy_h5ebsd" d "scans.h5" /\
    save ws cwd (Some r2) None None None 2 2 = Written "kikuchipy_h5ebsd" cwd "scans.h5".
Proof.
  intros P C D. cbn [Nat.add load_loop]. rewrite (abspath_plain cwd (Path true d "scans.h5")) by exact D. cbn [file_name place absolute directories].
  change (splitext "scans.h5") with ("scans", ".h5"). cbn iota. rewrite (abspath_plain cwd (Path false [] "scans")) by (cbn; now rewrite app_nil_r). cbn [file_name place absolute directories].
  change (splitext "scans") with ("scans", ""). cbn iota. eexists. eexists. eexists. split; [reflexivity|]. split.
  - apply (C74_extension_unused_refuted ws cwd (Remembered d "scans" "h5") None "" 2 P D); try (simpl; intuition discriminate); try discriminate; try lia.
  - rewrite app_nil_r. apply (C74_extension_unused_refuted ws cwd (Remembered cwd "scans" "") None "" 2 P C); try (simpl; intuition discriminate); try discriminate; try lia.
Qed.

(** The remembered and written directories are the ones reached by the names in the path, whatever these are. *)
Theorem C74_directory_of_path cwd n p r l : load_loop cwd n p = r :: l -> walk [] (place cwd p) (folder r).
Proof.
  destruct n as [|n]; [discriminate|]. cbn [load_loop]. unfold abspath. destruct (splitext (file_name p)) as [f e]. intros H. injection H as <- _.
  cbn [folder]. exact (normalise_walk (place cwd p) []).
Qed.
Theorem C74_directory_written ws cwd p sig nav w d name : save_to ws cwd p sig nav = Written w d name -> walk [] (place cwd p) d.
Proof.
  unfold save_to. destruct (drop1 _ =? "")%string; destruct (find _ ws); try discriminate; destruct (can_write sig nav); try discriminate;
  intros H; injection H as _ <- _; exact (normalise_walk (place cwd p) []).
Qed.
Theorem C74_directory_remembered cwd p : walk [] (place cwd p) (folder (remember_saved cwd p)).
Proof. unfold remember_saved. destruct (drop1 _ =? "")%string; exact (normalise_walk (place cwd p) []). Qed.
(** Without a name, given or known, nothing is saved. *)
Theorem C74_no_name ws cwd ext sig nav : save ws cwd None None None ext sig nav = Raises.
Proof. reflexivity. Qed.

Example saved_example : save writers ["home"; "ada"] None None (Some (Path false ["data"] "Ni.H5")) None 2 2 = Written "kikuchipy_h5ebsd" ["home"; "ada"; "data"] "Ni.H5".
Proof. reflexivity. Qed.
Example loaded_example : load_loop ["home"; "ada"] 2 (Path false [".."; "data"] "two.scans.h5") = [Remembered ["home"; "data"] "two.scans" "h5"; Remembered ["home"; "ada"] "two" "scans"].
Proof. reflexivity. Qed.
Example has_extension_example : has_extension "two.scans.h5" "two.scans" "h5".
Proof. repeat split; discriminate. Qed.
Print Assumptions C74_named_file_written.
Print Assumptions C74_second_scan_refuted.
