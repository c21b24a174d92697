(** The reader chosen for a file (property C73). The list of readers is in any order, since it is made from a directory
    listing. *)
From Coq Require Import Ascii String List Arith ZArith Reals Bool Lia Permutation.
From Verif Require Import Model.Binary Model.Hdf5 Proofs.Hdf5Proofs.
From Verif Require Model.Detector.
Import ListNotations.
Local Open Scope list_scope.
Local Open Scope string_scope.

Definition all_readers : list plugin := h5_plugins ++ other_plugins.

(** ** Specification *)
Definition ignoring_case (s t : string) : Prop := Detector.lower s = t.
(** The only child with this name, when case and leading blanks are ignored *)
Definition named (c : list (string * node)) (name : string) (m : node) : Prop :=
  exists k, In (k, m) c /\ ignoring_case (lstrip k) name /\ forall k' m', In (k', m') c -> ignoring_case (lstrip k') name -> m' = m.
Definition unnamed (c : list (string * node)) (name : string) : Prop := forall k m, In (k, m) c -> ~ ignoring_case (lstrip k) name.
(** A text dataset: a single text or an array with one *)
Definition is_text (m : node) (t : string) : Prop := m = Dataset [] [Text t] \/ m = Dataset [1] [Text t].
(** Contents found, and not found, under a sequence of names *)
Fixpoint has_content (n : node) (names : list string) : Prop :=
  match names with [] => True | k :: r => exists c m, n = Group c /\ named c k m /\ has_content m r end.
Fixpoint lacks_content (n : node) (names : list string) : Prop :=
  match names with
  | [] => False
  | k :: r => exists c, n = Group c /\ (unnamed c k \/ exists m, named c k m /\ lacks_content m r)
  end.

(** ** Proofs *)
Lemma low_named c name m : named c name m -> low_child c name = Some m.
Proof.
  intros (k & I & E & U). unfold low_child, ignoring_case in *. apply assoc_unique.
  - apply in_map_iff. exists (k, m). split; [cbn [fst snd]; unfold key_lower; now rewrite E|now rewrite <- in_rev].
  - intros b H. apply in_map_iff in H. destruct H as ([k' m'] & H & J). injection H as E' <-. rewrite <- in_rev in J. apply (U k' m' J E').
Qed.
Lemma low_unnamed c name : unnamed c name -> low_child c name = None.
Proof.
  intros H. unfold low_child. apply assoc_none. intros a I. apply in_map_iff in I. destruct I as ([k m] & E & J). injection E as E <-.
  rewrite <- in_rev in J. exact (H k m J E).
Qed.
Lemma chain_has names : forall n, has_content n names -> exists_chain n names = Some true.
Proof. induction names as [|k r IH]; intros n H; [reflexivity|]. destruct H as (c & m & -> & N & H). cbn [exists_chain]. rewrite (low_named _ _ _ N). now apply IH. Qed.
Lemma chain_lacks names : forall n, lacks_content n names -> exists_chain n names = Some false.
Proof.
  induction names as [|k r IH]; intros n H; [destruct H|]. destruct H as (c & -> & [U|(m & N & H)]); cbn [exists_chain].
  - now rewrite (low_unnamed _ _ U).
  - rewrite (low_named _ _ _ N). now apply IH.
Qed.
Lemma text_read m t : is_text m t -> manufacturer_text m = Some t.
Proof. intros [-> | ->]; reflexivity. Qed.

Lemma filter_perm {A} (f : A -> bool) l l' : Permutation l l' -> Permutation (filter f l) (filter f l').
Proof.
  induction 1; cbn; auto.
  - destruct (f x); auto.
  - destruct (f x), (f y); auto. apply perm_swap.
  - eapply Permutation_trans; eassumption.
Qed.
Lemma one_perm {A} (l l' : list A) a : Permutation l l' -> l' = [a] -> l = [a].
Proof. intros P ->. apply Permutation_sym in P. now apply Permutation_length_1_inv in P. Qed.
Lemma filter_opt_filter {A} (f : A -> option bool) (g : A -> bool) l : Forall (fun a => f a = Some (g a)) l -> filter_opt f l = Some (filter g l).
Proof. induction 1 as [|a l H _ IH]; [reflexivity|]. cbn. rewrite H. cbn [bind]. rewrite IH. cbn [bind]. now destruct (g a). Qed.

Definition for_extension (e : string) (p : plugin) : bool := mem (Detector.lower e) (extensions p).
Lemma reader_of_many plugins e f a b l p : filter (for_extension e) plugins = a :: b :: l -> plugin_from_footprints f (a :: b :: l) = Some (Some p) -> find_reader plugins e (Some f) = Some p.
Proof. intros E H. unfold find_reader. unfold for_extension in E. rewrite E, H. reflexivity. Qed.

(** All files with an extension of one reader are read by it: H5OINA, NORDIF, EDAX and Oxford Instruments binary files and images. *)
Theorem C73_extension_decides plugins extension file name :
  Permutation plugins all_readers ->
  In (Detector.lower extension, name)
    [("h5oina", "oxford_h5ebsd"); ("dat", "nordif"); ("txt", "nordif_calibration_patterns"); ("up1", "edax_binary"); ("up2", "edax_binary"); ("ebsp", "oxford_binary");
     ("tif", "ebsd_directory"); ("tiff", "ebsd_directory"); ("bmp", "ebsd_directory"); ("png", "ebsd_directory")] ->
  exists p, find_reader plugins extension file = Some p /\ p_name p = name.
Proof.
  intros P H. unfold find_reader.
  assert (F : exists p, filter (for_extension extension) all_readers = [p] /\ p_name p = name).
  { cbn [In] in H. repeat (destruct H as [H|H]; [injection H as H1 <-; unfold for_extension; rewrite <- H1; eexists; split; reflexivity|]). destruct H. }
  destruct F as (p & F & N). exists p. split; [|exact N].
  pose proof (one_perm _ _ p (filter_perm (for_extension extension) _ _ P) F) as E. unfold for_extension in E. now rewrite E.
Qed.

Lemma h5_readers plugins extension e : Permutation plugins all_readers -> Detector.lower extension = e -> In e ["h5"; "hdf5"; "h5ebsd"] ->
  Permutation (filter (for_extension extension) plugins) (if (e =? "h5ebsd")%string then filter (fun p => mem "h5ebsd" (extensions p)) h5_plugins else h5_plugins).
Proof.
  intros P E H. eapply Permutation_trans; [apply filter_perm, P|]. unfold for_extension. rewrite E.
  destruct H as [<-|[<-|[<-|[]]]]; apply Permutation_refl.
Qed.
Lemma two_at_least {A} (l l' : list A) : Permutation l l' -> (2 <= List.length l')%nat -> exists a b r, l = a :: b :: r.
Proof. intros P L. rewrite <- (Permutation_length P) in L. destruct l as [|a [|b r]]; cbn in L; try lia. eauto. Qed.

(** HDF5 files which name one of these manufacturers are read by their reader, whatever else they contain. *)
Theorem C73_manufacturer_decides plugins extension file m t name :
  Permutation plugins all_readers -> In (Detector.lower extension) ["h5"; "hdf5"; "h5ebsd"] ->
  named file "manufacturer" m -> is_text m t ->
  In (Detector.lower t, name) [("kikuchipy", "kikuchipy_h5ebsd"); ("edax", "edax_h5ebsd"); ("bruker nano", "bruker_h5ebsd")] ->
  exists p, find_reader plugins extension (Some file) = Some p /\ p_name p = name.
Proof.
  intros P E N T H. set (e := Detector.lower extension) in *. pose proof (h5_readers plugins extension e P eq_refl E) as Q.
  assert (L : (2 <= List.length (if (e =? "h5ebsd")%string then filter (fun p => mem "h5ebsd" (extensions p)) h5_plugins else h5_plugins))%nat) by (destruct (e =? "h5ebsd")%string; cbn; lia).
  destruct (two_at_least _ _ Q L) as (a & b & r & A).
  assert (F : exists p, filter (fun p => (Detector.lower t =? p_manufacturer p)%string) (if (e =? "h5ebsd")%string then filter (fun p => mem "h5ebsd" (extensions p)) h5_plugins else h5_plugins) = [p] /\ p_name p = name).
  { destruct (e =? "h5ebsd")%string; cbn [In] in H; repeat (destruct H as [H|H]; [injection H as H1 <-; rewrite <- H1; eexists; split; reflexivity|]); destruct H. }
  destruct F as (p & F & Np). exists p. split; [|exact Np]. apply (reader_of_many _ _ _ _ _ _ _ A).
  unfold plugin_from_footprints. rewrite (low_named _ _ _ N). cbn [bind]. rewrite (text_read _ _ T). cbn [bind].
  rewrite A in Q. rewrite (one_perm _ _ p (filter_perm _ _ _ Q) F). reflexivity.
Qed.

(** EMsoft files, which do not name a manufacturer, are read by the reader of their content. *)
Definition emsoft_contents : list (list string * string) :=
  [(["emdata"; "ebsd"; "ebsdpatterns"], "emsoft_ebsd"); (["emdata"; "ebsdmaster"], "emsoft_ebsd_master_pattern");
   (["emdata"; "ecpmaster"], "emsoft_ecp_master_pattern"); (["emdata"; "tkdmaster"], "emsoft_tkd_master_pattern")].
Theorem C73_content_decides plugins extension file content name :
  Permutation plugins all_readers -> In (Detector.lower extension) ["h5"; "hdf5"] -> unnamed file "manufacturer" ->
  In (content, name) emsoft_contents -> has_content (Group file) content ->
  (forall other n, In (other, n) emsoft_contents -> other <> content -> lacks_content (Group file) other) ->
  exists p, find_reader plugins extension (Some file) = Some p /\ p_name p = name.
Proof.
  intros P E U I H O. set (e := Detector.lower extension) in *.
  assert (E' : In e ["h5"; "hdf5"; "h5ebsd"]) by (destruct E as [<-|[<-|[]]]; simpl; auto).
  pose proof (h5_readers plugins extension e P eq_refl E') as Q.
  replace (if (e =? "h5ebsd")%string then filter (fun p => mem "h5ebsd" (extensions p)) h5_plugins else h5_plugins) with h5_plugins in Q by (destruct E as [<-|[<-|[]]]; reflexivity).
  destruct (two_at_least _ _ Q ltac:(cbn; lia)) as (a & b & r & A). rewrite A in Q.
  set (g := fun p => (p_name p =? name)%string).
  assert (M : Forall (fun p => matching_footprints file p = Some (g p)) h5_plugins).
  { pose proof (chain_has _ _ H) as C1.
    assert (C2 : forall other n, In (other, n) emsoft_contents -> other <> content -> exists_chain (Group file) other = Some false) by (intros; apply chain_lacks; eauto).
    assert (C0 : exists_chain (Group file) ["manufacturer"] = Some false) by (cbn; now rewrite (low_unnamed _ _ U)).
    assert (C3 : exists bv, exists_chain (Group file) ["version"] = Some bv) by (cbn; destruct (low_child file "version"); eauto). destruct C3 as [bv C3].
    assert (D : forall other n, In (other, n) emsoft_contents -> exists_chain (Group file) other = Some (n =? name)%string).
    { intros other n J. destruct (list_eq_dec string_dec other content) as [->|NE].
      - rewrite C1. f_equal. symmetry. apply String.eqb_eq.
        cbn in I, J. repeat (destruct I as [I|I]; [injection I as <- <-; repeat (destruct J as [J|J]; [injection J; intros; congruence|]); destruct J|]); destruct I.
      - rewrite (C2 _ _ J NE). f_equal. symmetry. apply String.eqb_neq. intros ->. apply NE.
        cbn in I, J. repeat (destruct I as [I|I]; [injection I as <- <-; repeat (destruct J as [J|J]; [injection J; intros; try congruence; discriminate|]); destruct J|]); destruct I. }
    assert (G1 : forall nm ex mf, In nm ["bruker_h5ebsd"; "edax_h5ebsd"; "kikuchipy_h5ebsd"] -> matching_footprints file (Plugin nm ex mf [["manufacturer"]; ["version"]]) = Some (g (Plugin nm ex mf [["manufacturer"]; ["version"]]))).
    { intros nm ex mf J. unfold matching_footprints. cbn [footprints map].
      change (exists_chain (Group file) [Detector.lower "manufacturer"]) with (exists_chain (Group file) ["manufacturer"]).
      change (exists_chain (Group file) [Detector.lower "version"]) with (exists_chain (Group file) ["version"]). rewrite C0, C3. cbn [all_some bind andb].
      f_equal. unfold g. cbn [p_name]. symmetry. apply String.eqb_neq. intros <-.
      cbn in I, J. repeat (destruct I as [I|I]; [injection I as <- <-; repeat (destruct J as [J|J]; [discriminate|]); destruct J|]); destruct I. }
    assert (G2 : forall nm ex mf ch, In (ch, nm) emsoft_contents -> map Detector.lower ch = ch -> matching_footprints file (Plugin nm ex mf [ch]) = Some (g (Plugin nm ex mf [ch]))).
    { intros nm ex mf ch J L. unfold matching_footprints. cbn [footprints map]. rewrite L, (D _ _ J). cbn [all_some bind negb]. unfold g. cbn [p_name].
      now rewrite !andb_true_r. }
    unfold h5_plugins. repeat (apply Forall_cons; [first [apply G1; simpl; tauto|apply G2; [simpl; tauto|reflexivity]]|]). constructor. }
  assert (F : exists p, filter g h5_plugins = [p] /\ p_name p = name).
  { cbn in I. repeat (destruct I as [I|I]; [injection I as <- <-; eexists; split; reflexivity|]). destruct I. }
  destruct F as (p & F & Np). exists p. split; [|exact Np]. apply (reader_of_many _ _ _ _ _ _ _ A).
  unfold plugin_from_footprints. rewrite (low_unnamed _ _ U). cbn [bind].
  assert (M' : Forall (fun p => matching_footprints file p = Some (g p)) (a :: b :: r)) by (eapply Permutation_Forall; [apply Permutation_sym, Q|exact M]).
  rewrite (filter_opt_filter _ g _ M'). cbn [bind]. rewrite (one_perm _ _ p (filter_perm g _ _ Q) F). reflexivity.
Qed.

(** Files of unknown manufacturers with a version are refused, not read as something else. *)
Theorem C73_unknown_manufacturer_refused plugins extension file m v t :
  Permutation plugins all_readers -> In (Detector.lower extension) ["h5"; "hdf5"; "h5ebsd"] ->
  named file "manufacturer" m -> is_text m t -> named file "version" v ->
  ~ In (Detector.lower t) ["kikuchipy"; "edax"; "bruker nano"; "emsoft"] ->
  find_reader plugins extension (Some file) = None.
Proof.
  intros P E N T V H. set (e := Detector.lower extension) in *. pose proof (h5_readers plugins extension e P eq_refl E) as Q.
  set (rs := if (e =? "h5ebsd")%string then filter (fun p => mem "h5ebsd" (extensions p)) h5_plugins else h5_plugins) in *.
  assert (L : (2 <= List.length rs)%nat) by (unfold rs; destruct (e =? "h5ebsd")%string; cbn; lia).
  destruct (two_at_least _ _ Q L) as (a & b & r & A). unfold find_reader. fold (for_extension extension). rewrite A. rewrite A in Q.
  unfold plugin_from_footprints. rewrite (low_named _ _ _ N). cbn [bind]. rewrite (text_read _ _ T). cbn [bind].
  assert (F0 : filter (fun p => (Detector.lower t =? p_manufacturer p)%string) rs = []).
  { assert (X : forall p, In p h5_plugins -> (Detector.lower t =? p_manufacturer p)%string = false).
    { intros p Ip. apply String.eqb_neq. intros Eq. apply H. rewrite Eq. cbn in Ip. repeat (destruct Ip as [<-|Ip]; [simpl; tauto|]). destruct Ip. }
    assert (Y : forall p, In p rs -> In p h5_plugins) by (unfold rs; destruct (e =? "h5ebsd")%string; [intros p Ip; now apply filter_In in Ip|auto]).
    clear -X Y. induction rs as [|p l IH]; [reflexivity|]. cbn. rewrite X by (apply Y; now left). apply IH. intros q Iq. apply Y. now right. }
  pose proof (filter_perm (fun p => (Detector.lower t =? p_manufacturer p)%string) _ _ Q) as Q2. rewrite F0 in Q2. apply Permutation_sym, Permutation_nil in Q2. rewrite Q2.
  destruct (filter_opt (matching_footprints file) (a :: b :: r)) as [l|] eqn:FO; [|reflexivity]. cbn [bind].
  assert (K : forall l0 l1, filter_opt (matching_footprints file) l0 = Some l1 -> forall p, In p l0 -> matching_footprints file p = Some true -> In p l1).
  { induction l0 as [|q l0 IH]; intros l1 G p Ip Mp; [destruct Ip|]. cbn in G. destruct Ip as [->|Ip].
    - rewrite Mp in G. cbn [bind] in G. destruct (filter_opt _ l0); [|discriminate]. cbn [bind] in G. injection G as <-. now left.
    - destruct (matching_footprints file q) as [bq|]; [|discriminate]. cbn [bind] in G. destruct (filter_opt _ l0) as [l2|] eqn:E2; [|discriminate]. cbn [bind] in G. injection G as <-.
      specialize (IH l2 eq_refl p Ip Mp). destruct bq; [now right|exact IH]. }
  assert (MP : forall nm ex mf, matching_footprints file (Plugin nm ex mf [["manufacturer"]; ["version"]]) = Some true).
  { intros. unfold matching_footprints. cbn [footprints map exists_chain]. change (Detector.lower "manufacturer") with "manufacturer". change (Detector.lower "version") with "version".
    rewrite (low_named _ _ _ N), (low_named _ _ _ V). reflexivity. }
  set (p1 := Plugin "bruker_h5ebsd" ["h5"; "hdf5"; "h5ebsd"] "bruker nano" [["manufacturer"]; ["version"]]).
  set (p2 := Plugin "edax_h5ebsd" ["h5"; "hdf5"; "h5ebsd"] "edax" [["manufacturer"]; ["version"]]).
  assert (R : In p1 rs /\ In p2 rs) by (unfold rs, p1, p2; destruct (e =? "h5ebsd")%string; simpl; tauto).
  assert (I1 : In p1 l) by (apply (K _ _ FO); [apply (Permutation_in _ (Permutation_sym Q)); apply R|apply MP]).
  assert (I2 : In p2 l) by (apply (K _ _ FO); [apply (Permutation_in _ (Permutation_sym Q)); apply R|apply MP]).
  destruct l as [|q [|q' l]]; try reflexivity. exfalso. destruct I1 as [->|[]]. destruct I2 as [I2|[]]. discriminate.
Qed.

(** A file with two supported contents is refused: simulated patterns beside their master pattern. *)
Theorem C73_two_contents_refuted plugins : Permutation plugins all_readers ->
  let ebsd := ("EBSD", Group [("EBSDPatterns", Dataset [1] [Int 1])]) in
  let master := ("EBSDmaster", Group []) in
  (exists p, find_reader plugins "h5" (Some [("EMData", Group [ebsd])]) = Some p) /\
  (exists p, find_reader plugins "h5" (Some [("EMData", Group [master])]) = Some p) /\
  find_reader plugins "h5" (Some [("EMData", Group [ebsd; master])]) = None.
Proof.
  intros P ebsd master.
  assert (NM : forall x, unnamed [("EMData", x)] "manufacturer") by (intros x k m [H|[]]; injection H as <- _; discriminate).
  assert (ND : forall x, named [("EMData", x)] "emdata" x) by (intros x; exists "EMData"; split; [now left|]; split; [reflexivity|]; intros k m [H|[]] _; now injection H).
  split; [|split].
  - destruct (C73_content_decides plugins "h5" [("EMData", Group [ebsd])] ["emdata"; "ebsd"; "ebsdpatterns"] "emsoft_ebsd" P) as (p & E & _).
    + simpl; auto.
    + apply NM.
    + simpl; auto.
    + exists [("EMData", Group [ebsd])], (Group [ebsd]). split; [reflexivity|]. split; [apply ND|]. eexists. eexists. split; [reflexivity|]. split.
      * exists "EBSD". split; [now left|]. split; [reflexivity|]. intros k m [H|[]] _. now injection H.
      * eexists. eexists. split; [reflexivity|]. split; [|exact I]. exists "EBSDPatterns". split; [now left|]. split; [reflexivity|]. intros k m [H|[]] _. now injection H.
    + intros other n J NE. cbn in J. destruct J as [J|J]; [injection J as <- <-; congruence|].
      assert (X : exists k, other = ["emdata"; k] /\ k <> "ebsd") by (repeat (destruct J as [J|J]; [injection J as <- <-; eexists; split; [reflexivity|discriminate]|]); destruct J).
      destruct X as (k & -> & NK). exists [("EMData", Group [ebsd])]. split; [reflexivity|]. right. exists (Group [ebsd]). split; [apply ND|].
      eexists. split; [reflexivity|]. left. intros k' m' [H|[]]. injection H as <- _. intros E'. apply NK. exact (eq_sym E').
    + eauto.
  - destruct (C73_content_decides plugins "h5" [("EMData", Group [master])] ["emdata"; "ebsdmaster"] "emsoft_ebsd_master_pattern" P) as (p & E & _).
    + simpl; auto.
    + apply NM.
    + simpl; auto.
    + exists [("EMData", Group [master])], (Group [master]). split; [reflexivity|]. split; [apply ND|]. eexists. eexists. split; [reflexivity|]. split; [|exact I].
      exists "EBSDmaster". split; [now left|]. split; [reflexivity|]. intros k m [H|[]] _. now injection H.
    + intros other n J NE.
      assert (X : exists k r, other = "emdata" :: k :: r /\ k <> "ebsdmaster").
      { cbn in J. repeat (destruct J as [J|J]; [injection J as <- <-; first [exfalso; apply NE; reflexivity|eexists; eexists; split; [reflexivity|discriminate]]|]). destruct J. }
      destruct X as (k & r & -> & NK). exists [("EMData", Group [master])]. split; [reflexivity|]. right. exists (Group [master]). split; [apply ND|]. eexists. split; [reflexivity|]. left. intros k' m' [H|[]]. injection H as <- _. intros E'. apply NK. exact (eq_sym E').
    + eauto.
  - unfold find_reader. fold (for_extension "h5"). pose proof (h5_readers plugins "h5" "h5" P eq_refl ltac:(simpl; auto)) as Q. cbn [String.eqb Ascii.eqb Bool.eqb] in Q.
    destruct (two_at_least _ _ Q ltac:(cbn; lia)) as (a & b & r & A). rewrite A. rewrite A in Q. unfold plugin_from_footprints. rewrite (low_unnamed _ _ (NM _)). cbn [bind].
    set (f := [("EMData", Group [ebsd; master])]).
    set (g := fun p => mem (p_name p) ["emsoft_ebsd"; "emsoft_ebsd_master_pattern"]).
    assert (M : Forall (fun p => matching_footprints f p = Some (g p)) h5_plugins) by (unfold h5_plugins; repeat constructor).
    assert (M' : Forall (fun p => matching_footprints f p = Some (g p)) (a :: b :: r)) by (eapply Permutation_Forall; [apply Permutation_sym, Q|exact M]).
    rewrite (filter_opt_filter _ g _ M'). cbn [bind]. pose proof (Permutation_length (filter_perm g _ _ Q)) as L.
    change (List.length (filter g h5_plugins)) with 2%nat in L.
    destruct (filter g (a :: b :: r)) as [|q [|q' l]]; try reflexivity. discriminate L.
Qed.

Example reader_example : find_reader all_readers "H5" (Some [("Manufacturer", Dataset [1] [Text "kikuchipy"]); ("Scan 1", Group []); ("version", Dataset [] [Text "0.11"])])
  = Some (Plugin "kikuchipy_h5ebsd" ["h5"; "hdf5"; "h5ebsd"] "kikuchipy" [["manufacturer"]; ["version"]]).
Proof. reflexivity. Qed.
Example named_example : named [("Manufacturer", Dataset [1] [Text "kikuchipy"]); ("Scan 1", Group [])] "manufacturer" (Dataset [1] [Text "kikuchipy"]).
Proof. exists "Manufacturer". split; [now left|]. split; [reflexivity|]. intros k m [H|[H|[]]]; injection H as <- <-; [reflexivity|discriminate]. Qed.
Print Assumptions C73_manufacturer_decides.
Print Assumptions C73_content_decides.
