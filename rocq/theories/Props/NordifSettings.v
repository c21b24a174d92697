(** C83: what is read from NORDIF setting files. *)
From Coq Require Import Ascii String List ZArith Arith QArith Qabs Bool Lia.
From Verif Require Import Model.DetectorText Proofs.DetectorTextProofs Model.Binary Model.Nordif Model.NordifSettings Proofs.BinaryProofs Proofs.NordifSettingsProofs Spec.SettingsText.
Import ListNotations.
Local Open Scope string_scope.
Local Open Scope list_scope.

Definition settings_name (t : pattern_type) : string := match t with Acquisition => "Acquisition settings" | Calibration => "Calibration settings" end.
Lemma plain_names : plain "Microscope" /\ plain "Detector angles" /\ plain "Area" /\ plain "Electron image" /\ plain "Calibration patterns" /\ forall t, plain (settings_name t).
Proof. unfold plain. cbn. repeat split; try discriminate; destruct t; cbn; repeat split; discriminate. Qed.

(** The documents that are read: every number of the document is found under its label, whatever other blocks and entries there are and in
    whatever order the blocks come. *)
Theorem C83_settings_read : forall d t energy mag maker model wd tilt elevation azim rows cols width height step u1 u2 u3 u4 u5 u6,
  setting_document (settings_name t) d ->
  says d "Microscope" "Manufacturer" maker u1 -> says d "Microscope" "Model" model u2 -> says d "Microscope" "Magnification" (show_nat mag) "#" ->
  says d "Microscope" "Accelerating voltage" (text energy) "kV" -> says d "Microscope" "Working distance" (text wd) "mm" ->
  says d "Microscope" "Tilt angle" (text tilt) u3 ->
  says d "Detector angles" "Azimuthal" (text azim) u4 -> says d "Detector angles" "Elevation" (text elevation) u5 ->
  says d (settings_name t) "Resolution" (by_text width height) "px" ->
  says d "Area" "Step size" (text step) u6 -> says d "Area" "Number of samples" (by_text rows cols) "#" ->
  units elevation = 0%Z \/ (1 # 100000000 < Qabs (amount elevation))%Q ->
  get_settings_from_file t (document d)
  = Some {| beam_energy := amount energy; magnification := Z.of_nat mag; microscope := maker ++ " " ++ model; working_distance := amount wd;
            ny := Z.of_nat rows; nx := Z.of_nat cols; sy := Z.of_nat height; sx := Z.of_nat width; step := amount step;
            detector_shape := (Z.of_nat height, Z.of_nat width); sample_tilt := amount tilt; tilt := - amount elevation; azimuthal := amount azim |}.
Proof.
  intros d t energy mag maker model wd tilt elevation azim rows cols width height step u1 u2 u3 u4 u5 u6 (P & BM & BA & BS & BR) M1 M2 M3 M4 M5 M6 A1 A2 S1 R1 R2 E.
  destruct plain_names as (NM & NA & NR & _ & _ & NS). specialize (NS t).
  pose proof (says_text _ _ _ 0 _ _ "" _ P NM BM eq_refl M1) as T1. pose proof (says_text _ _ _ 1 _ _ "" _ P NM BM eq_refl M2) as T2.
  pose proof (says_text _ _ _ 2 _ _ "#" "" P NM BM eq_refl M3) as T3. pose proof (says_text _ _ _ 4 _ _ "kV" "" P NM BM eq_refl M4) as T4.
  pose proof (says_text _ _ _ 5 _ _ "mm" "" P NM BM eq_refl M5) as T5. pose proof (says_text _ _ _ 6 _ _ "" _ P NM BM eq_refl M6) as T6.
  pose proof (says_text _ _ _ 3 _ _ "" _ P NA BA eq_refl A1) as T7. pose proof (says_text _ _ _ 4 _ _ "" _ P NA BA eq_refl A2) as T8.
  pose proof (says_text _ _ _ 1 _ _ "px" "" P NS BS eq_refl S1) as T9.
  pose proof (says_text _ _ _ 4 _ _ "" _ P NR BR eq_refl R1) as T10. pose proof (says_text _ _ _ 5 _ _ "#" "" P NR BR eq_refl R2) as T11.
  change (tab ++ "")%string with tab in *.
  unfold get_settings_from_file.
  replace (settings_block t) with (heading (settings_name t)) by (destruct t; reflexivity).
  change "[Microscope]" with (heading "Microscope"). change "[Detector angles]" with (heading "Detector angles"). change "[Area]" with (heading "Area").
  change 5%Z with (Z.of_nat 5). change 1%Z with (Z.of_nat 1). change 2%Z with (Z.of_nat 2). change 3%Z with (Z.of_nat 3). change 6%Z with (Z.of_nat 6).
  change 7%Z with (Z.of_nat 7). change 4%Z with (Z.of_nat 4).
  rewrite T4. cbn [bind]. rewrite T1. cbn [bind]. rewrite T2. cbn [bind]. rewrite T3. cbn [bind]. rewrite T5. cbn [bind].
  rewrite py_float_text. cbn [bind]. rewrite py_int_show. cbn [bind]. rewrite py_float_text. cbn [bind]. rewrite T11. cbn [bind]. rewrite two_ints_by. cbn [bind].
  rewrite T9. cbn [bind]. rewrite two_ints_by. cbn [bind]. rewrite T10. cbn [bind]. rewrite py_float_text. cbn [bind]. rewrite T6. cbn [bind]. rewrite py_float_text. cbn [bind].
  rewrite T8. cbn [bind]. rewrite py_float_text. cbn [bind]. rewrite T7. cbn [bind]. rewrite py_float_text. cbn [bind].
  replace (if is_close_to_zero (- amount elevation) then (- - amount elevation)%Q else (- amount elevation)%Q) with (- amount elevation)%Q; [reflexivity|].
  destruct E as [E|E].
  - destruct elevation as [k z]. cbn in E. subst z. unfold amount. cbn [decimals units]. destruct (is_close_to_zero _); reflexivity.
  - unfold is_close_to_zero. destruct (Qle_bool (Qabs (- amount elevation)) (1 # 100000000)) eqn:L; [|reflexivity]. apply Qle_bool_iff in L.
    rewrite Qabs_opp in L. exfalso. exact (Qlt_not_le _ _ E L).
Qed.
Print Assumptions C83_settings_read.

(** A document that is read. *)
Definition sample_entries (specimen : string) (microscope : list entry) (image : string) : list block :=
  [ Block "NORDIF" [Entry "Software version" "3.1.2" ""];
    Block "Microscope" microscope;
    Block "Electron image" [Entry "Frame rate" "0.25" "fps"; Entry "Resolution" image "px"; Entry "Rotation" "0" "deg"];
    Block "Detector angles" [Entry "Euler 1" "0" "deg"; Entry "Euler 2" "0" "deg"; Entry "Euler 3" "0" "deg"; Entry "Azimuthal" "0.5" "deg"; Entry "Elevation" "5.0" "deg"];
    Block "Acquisition settings" [Entry "Frame rate" "202" "fps"; Entry "Resolution" "4x2" "px"; Entry "Gain" "0" ""];
    Block "Calibration settings" [Entry "Frame rate" "10" "fps"; Entry "Resolution" "6x5" "px"; Entry "Gain" "8" ""];
    Block "Area" [Entry "Top" "89.200 (223)" "um (px)"; Entry "Left" "60.384 (152)" "um (px)"; Entry "Width" "4.500 (11)" "um (px)";
                  Entry "Height" "3.000 (8)" "um (px)"; Entry "Step size" "1.500" "um"; Entry "Number of samples" "2x3" "#"];
    Block "Specimen" [Entry "Name" specimen ""];
    Block "Calibration patterns" [Entry "Calibration (425,447)" "425,447" "px"; Entry "Calibration (294,532)" "294,532" "px"] ].
Definition sample_microscope : list entry :=
  [ Entry "Manufacturer" "Hitachi" ""; Entry "Model" "SU-6600" ""; Entry "Magnification" "200" "#"; Entry "Scan direction" "Direct" "";
    Entry "Accelerating voltage" "20" "kV"; Entry "Working distance" "24.7" "mm"; Entry "Tilt angle" "70" "deg" ].
Definition sample : list block := sample_entries "Ni" sample_microscope "1000x800".

Lemma sample_blocks : forall t, setting_document (settings_name t) sample.
Proof.
  intros t. unfold setting_document. split; [repeat constructor; cbn; discriminate|].
  assert (H : forall n before b after labels, sample = before ++ Block n (entries b) :: after -> firstn (List.length labels) (map label (entries b)) = labels ->
    existsb (String.eqb n) (map name (before ++ after)) = false -> has_block sample n labels).
  { intros n before b after labels D L N. exists before, (firstn (List.length labels) (entries b)), (skipn (List.length labels) (entries b)), after.
    rewrite firstn_skipn, firstn_map in *. repeat split; [exact D|exact L|]. intros I. assert (existsb (String.eqb n) (map name (before ++ after)) = true); [|congruence].
    apply existsb_exists. exists n. split; [exact I|apply String.eqb_refl]. }
  split; [|split; [|split]].
  - now apply (H _ (firstn 1 sample) (nth 1 sample (Block "" [])) (skipn 2 sample)).
  - now apply (H _ (firstn 3 sample) (nth 3 sample (Block "" [])) (skipn 4 sample)).
  - destruct t; [now apply (H _ (firstn 4 sample) (nth 4 sample (Block "" [])) (skipn 5 sample))|now apply (H _ (firstn 5 sample) (nth 5 sample (Block "" [])) (skipn 6 sample))].
  - now apply (H _ (firstn 6 sample) (nth 6 sample (Block "" [])) (skipn 7 sample)).
Qed.
Lemma says_sample : forall n l v u,
  existsb (fun b => String.eqb (name b) n && existsb (fun e => String.eqb (label e) l && String.eqb (value e) v && String.eqb (unit e) u) (entries b)) sample = true ->
  forallb (fun b => negb (String.eqb (name b) n) || forallb (fun e => negb (String.eqb (label e) l) || (String.eqb (value e) v && String.eqb (unit e) u)) (entries b)) sample = true ->
  says sample n l v u.
Proof.
  intros n l v u X A. split.
  - apply existsb_exists in X as (b & B & X). apply andb_true_iff in X as [N X]. apply existsb_exists in X as (e & E & X).
    apply andb_true_iff in X as [X U]. apply andb_true_iff in X as [L V]. apply String.eqb_eq in N, L, V, U. exists b, e. destruct e; cbn in *; subst. auto.
  - intros b e B N E L. rewrite forallb_forall in A. specialize (A b B). rewrite N, String.eqb_refl in A. cbn [negb orb] in A. rewrite forallb_forall in A. specialize (A e E).
    rewrite L, String.eqb_refl in A. cbn [negb orb] in A. apply andb_true_iff in A as [V U]. apply String.eqb_eq in V, U. destruct e; cbn in *; subst; reflexivity.
Qed.
Example C83_settings_read_example :
  get_settings_from_file Acquisition (document sample)
  = Some (Settings (20 # 1) 200 "Hitachi SU-6600" (247 # 10) 2 3 2 4 (1500 # 1000) (2, 4)%Z (70 # 1) (- (50 # 10)) (5 # 10)).
Proof.
  apply (C83_settings_read sample Acquisition (Number 0 20) 200 "Hitachi" "SU-6600" (Number 1 247) (Number 0 70) (Number 1 50) (Number 1 5) 2 3 4 2 (Number 3 1500) "" "" "deg" "deg" "deg" "um");
    try (apply says_sample; vm_compute; reflexivity); [apply sample_blocks|right; vm_compute; reflexivity].
Qed.

(** A setting file that is read has all its numbers: whenever there is a warning about one of them, reading fails. *)
Theorem C83_numbers_are_needed : forall t content s, get_settings_from_file t content = Some s ->
  let mic := blocks content "[Microscope]" in let ang := blocks content "[Detector angles]" in
  let acq := blocks content (settings_block t) in let area := blocks content "[Area]" in
  forall pre suf line,
  In (pre, suf, line)
    [ ("Accelerating voltage" ++ tab, tab ++ "kV", mic + 5); ("Magnification" ++ tab, tab ++ "#", mic + 3); ("Working distance" ++ tab, tab ++ "mm", mic + 6);
      ("Tilt angle" ++ tab, tab, mic + 7); ("Azimuthal" ++ tab, tab, ang + 4); ("Elevation" ++ tab, tab, ang + 5); ("Resolution" ++ tab, tab ++ "px", acq + 2);
      ("Step size" ++ tab, tab, area + 5); ("Number of samples" ++ tab, tab ++ "#", area + 6) ]%string%Z ->
  exists v, get_string content pre suf line = Some (v, None) /\ v <> "".
Proof.
  intros t content s H mic ang acq area.
  assert (F : forall pre suf line v, get_text content pre suf line = Some v -> v <> "" -> exists v, get_string content pre suf line = Some (v, None) /\ v <> "").
  { intros pre suf line v G N. unfold get_text, get_string in *. destruct (get_line content line) as [l|]; [|discriminate]. cbn [bind option_map] in *.
    destruct (search pre suf l) as [g|]; cbn in G; injection G as <-; [now exists g|contradiction]. }
  unfold get_settings_from_file in H. fold mic ang acq area in H.
  repeat match type of H with bind ?o _ = _ => let E := fresh "E" in destruct o eqn:E; cbn [bind] in H; [|discriminate H] | (let '(_, _) := ?p in _) = _ => destruct p end.
  repeat match goal with E : bind (get_text ?a ?b ?c ?d) _ = _ |- _ => let G := fresh "G" in destruct (get_text a b c d) eqn:G; cbn [bind] in E; [|discriminate E] end.
  intros pre suf line I. cbn [In] in I.
  repeat (destruct I as [I|I]; [injection I as <- <- <-; eapply F; [eassumption|intros ->; discriminate]|]). destruct I.
Qed.
Print Assumptions C83_numbers_are_needed.
(** Only the name of the microscope may be missing. *)
Example C83_numbers_are_needed_example :
  option_map microscope (get_settings_from_file Acquisition (document (sample_entries "Ni"
    [ Entry "Vendor" "Hitachi" ""; Entry "Type" "SU-6600" ""; Entry "Magnification" "200" "#"; Entry "Scan direction" "Direct" "";
      Entry "Accelerating voltage" "20" "kV"; Entry "Working distance" "24.7" "mm"; Entry "Tilt angle" "70" "deg" ] "1000x800"))) = Some " ".
Proof. vm_compute. reflexivity. Qed.

(** The warning names another line: the line two above the one that was read, counting lines from one (one above, counting from zero). *)
Theorem C83_reported_line_refuted : forall content pre suf line v w, (0 <= line)%Z -> get_string content pre suf line = Some (v, Some w) ->
  (exists l, nth_error content (Z.to_nat line) = Some l /\ search pre suf l = None) /\ w = (line - 1)%Z /\ w <> line /\ w <> (line + 1)%Z.
Proof.
  intros content pre suf line v w L H. unfold get_string, get_line in H. destruct (nth_error content (Z.to_nat line)) as [l|] eqn:E; [|discriminate]. cbn in H.
  destruct (search pre suf l) as [g|] eqn:S; [discriminate|]. injection H as _ <-. split; [now exists l|lia].
Qed.
Example C83_reported_line_example : get_string ["[Microscope]"; "Type" ++ tab]%string ("Manufacturer" ++ tab) tab 1 = Some ("", Some 0%Z).
Proof. reflexivity. Qed.

(** Values are found by the place of their line in the block, not only by the label: two entries exchanged, and the file is not read. *)
Theorem C83_order_of_entries_refuted : exists a b, (forall e, In e a <-> In e b) /\
  get_settings_from_file Acquisition (document (sample_entries "Ni" a "1000x800")) <> None /\
  get_settings_from_file Acquisition (document (sample_entries "Ni" b "1000x800")) = None.
Proof.
  exists sample_microscope, (match sample_microscope with [a; b; c; d; e; f; g] => [a; b; c; d; f; e; g] | l => l end).
  split; [intros e; cbn; tauto|]. split; [vm_compute; discriminate|vm_compute; reflexivity].
Qed.
Print Assumptions C83_order_of_entries_refuted.

(** A value with the text of a heading is taken for the heading. *)
Theorem C83_heading_in_a_value_refuted : exists specimen,
  get_settings_from_file Acquisition (document (sample_entries "Ni" sample_microscope "1000x800")) <> None /\
  get_settings_from_file Acquisition (document (sample_entries specimen sample_microscope "1000x800")) = None.
Proof. exists "Steel [Area] 2". split; [vm_compute; discriminate|vm_compute; reflexivity]. Qed.

(** Calibration patterns: indices are (row, column) of the points listed in the block, in the order of the list, and the files read are those named
    after the points. Lengths of the area in pixels and the number of pixels of the electron image are returned, and all of them in whole steps:
    pixels times the width in micrometers over the width in pixels, over the step size. *)
Theorem C83_calibration_read : forall before es ps after0 ktop kleft kheight kwidth ztop zleft zheight zwidth top left height width u1 u2 u3 u4 u5 iw ih step,
  let d := before ++ Block "Calibration patterns" es :: after0 in
  Forall plain_block d -> ~ In "Calibration patterns" (map name (before ++ after0)) ->
  Forall2 point_entry es ps -> ps <> [] -> (forall l, In l (document after0) -> contains "Calibration (" l = false) ->
  has_block d "Electron image" image_labels -> says d "Electron image" "Resolution" (by_text iw ih) u5 -> every (fun a => negb (is_digit a)) u5 = true ->
  has_block d "Area" area_labels ->
  says d "Area" "Top" (length_text (Number (S ktop) ztop) top) u1 -> says d "Area" "Left" (length_text (Number (S kleft) zleft) left) u2 ->
  says d "Area" "Width" (length_text (Number (S kwidth) zwidth) width) u3 -> says d "Area" "Height" (length_text (Number (S kheight) zheight) height) u4 ->
  Forall (fun u => every (fun a => negb (is_digit a)) u = true) [u1; u2; u3; u4] -> (0 <= ztop)%Z -> (0 <= zleft)%Z -> (0 < zwidth)%Z -> (0 <= zheight)%Z ->
  (0 < width)%nat -> ~ (step == 0)%Q ->
  exists steps, (forall i, (Qabs (inject_Z (steps i) - inject_Z i * amount (Number (S kwidth) zwidth) / inject_Z (Z.of_nat width) / step) <= 1 # 2)%Q) /\
  let scaled2 := fun p : Z * Z => (Some (steps (fst p)), Some (steps (snd p))) in
  calibration_settings (document d) step
  = Some {| indices := map (fun p => [Z.of_nat (snd p); Z.of_nat (fst p)]) ps; area := Some (Some (Z.of_nat ih, Z.of_nat iw));
            roi_origin := (Z.of_nat top, Z.of_nat left); roi_shape := (Z.of_nat height, Z.of_nat width);
            scaled := Some (map (fun p => [Some (steps (Z.of_nat (snd p))); Some (steps (Z.of_nat (fst p)))]) ps,
                            scaled2 (Z.of_nat top, Z.of_nat left), scaled2 (Z.of_nat height, Z.of_nat width), Some (scaled2 (Z.of_nat ih, Z.of_nat iw))) |}
  /\ all_some (map pattern_name (map (fun p => [Z.of_nat (snd p); Z.of_nat (fst p)]) ps)) = Some (map (fun p => point_text p ++ ".bmp")%string ps).
Proof.
  intros before es ps after0 ktop kleft kheight kwidth ztop zleft zheight zwidth top left height width u1 u2 u3 u4 u5 iw ih step d P N F NE A BI I UI BR T L W H U Zt Zl Zw Zh Pw S.
  destruct plain_names as (_ & _ & NR & NI & NC & _).
  inversion U as [|? ? U1 U']; subst. inversion U' as [|? ? U2 U'']; subst. inversion U'' as [|? ? U3 U''']; subst. inversion U''' as [|? ? U4 _]; subst. clear U U' U'' U'''.
  set (factor := (step * inject_Z (Z.of_nat width) / amount (Number (Datatypes.S kwidth) zwidth))%Q).
  assert (Wn : ~ (amount (Number (Datatypes.S kwidth) zwidth) == 0)%Q) by (unfold amount, Qeq; cbn [Qnum Qden units decimals]; lia).
  assert (Pn : ~ (inject_Z (Z.of_nat width) == 0)%Q) by (unfold Qeq; cbn; lia).
  assert (Fn : Qeq_bool factor 0 = false).
  { destruct (Qeq_bool factor 0) eqn:E; [|reflexivity]. apply Qeq_bool_iff in E. exfalso. unfold factor in E. unfold Qdiv in E. apply Qmult_integral in E as [E|E].
    - apply Qmult_integral in E as [E|E]; contradiction.
    - apply Wn. rewrite <- (Qinv_involutive (amount _)), E. reflexivity. }
  exists (fun x => round_half_even (inject_Z x / factor)). split.
  { intros i. setoid_replace (inject_Z i * amount (Number (Datatypes.S kwidth) zwidth) / inject_Z (Z.of_nat width) / step)%Q with (inject_Z i / factor)%Q; [apply round_nearest|].
    unfold factor. field. repeat split; assumption. }
  cbv zeta. split.
  - unfold calibration_settings.
    assert (B : blocks (document d) "[Calibration patterns]" = Z.of_nat (List.length (document before))) by (apply (blocks_at "Calibration patterns"); assumption).
    rewrite B. destruct (Z.eqb_spec (Z.of_nat (List.length (document before))) (-1)); [lia|].
    unfold d at 1. rewrite skip_to_entries.
    rewrite (read_indices_points es ps _ [] F) by
      (apply read_indices_none; intros l K; apply in_app_or in K as [[<-|[]]|K]; [reflexivity|now apply A]).
    rewrite app_nil_r. cbn [bind].
    assert (Fa : forallb (fun r => (List.length r =? 2)%nat) (map (fun p => [Z.of_nat (snd p); Z.of_nat (fst p)]) ps) = true)
      by (apply forallb_forall; intros r R; apply in_map_iff in R as (p & <- & _); reflexivity).
    destruct ps as [|p0 ps]; [contradiction|]. cbn [map]. change (List.length [Z.of_nat (snd p0); Z.of_nat (fst p0)]) with 2%nat.
    change ([Z.of_nat (snd p0); Z.of_nat (fst p0)] :: map (fun p => [Z.of_nat (snd p); Z.of_nat (fst p)]) ps) with (map (fun p => [Z.of_nat (snd p); Z.of_nat (fst p)]) (p0 :: ps)).
    rewrite Fa. cbn [negb].
    destruct (says_line _ _ _ 1 _ _ _ P NI BI eq_refl I) as (LI & _). change (heading "Electron image") with "[Electron image]" in LI. change (Z.of_nat 2) with 2%Z in LI. rewrite LI. cbn [bind].
    unfold entry_text. cbn [label value unit]. rewrite after_start.
    assert (NU : numbers (tabulator ++ by_text iw ih ++ tabulator ++ u5) = [show_nat iw; show_nat ih]).
    { unfold by_text. rewrite numbers_skip by reflexivity. rewrite !append_assoc. change ("x" ++ show_nat ih ++ tabulator ++ u5)%string with (String "x" (show_nat ih ++ tabulator ++ u5)).
      rewrite numbers_digits by (apply show_nat_nonempty || apply show_nat_digits || reflexivity). f_equal. rewrite numbers_skip1 by reflexivity.
      change (tabulator ++ u5)%string with (String (ascii_of_nat 9) u5).
      rewrite numbers_digits by (apply show_nat_nonempty || apply show_nat_digits || reflexivity). f_equal. rewrite numbers_skip1 by reflexivity. now apply numbers_none. }
    rewrite NU, !py_int_show.
    destruct (says_line _ _ _ 0 _ _ _ P NR BR eq_refl T) as (LT & _). destruct (says_line _ _ _ 1 _ _ _ P NR BR eq_refl L) as (LL & _).
    destruct (says_line _ _ _ 2 _ _ _ P NR BR eq_refl W) as (LW & _). destruct (says_line _ _ _ 3 _ _ _ P NR BR eq_refl H) as (LH & _).
    change (heading "Area") with "[Area]" in LT, LL, LW, LH. change (Z.of_nat 1) with 1%Z in LT. change (Z.of_nat 2) with 2%Z in LL.
    change (Z.of_nat 3) with 3%Z in LW. change (Z.of_nat 4) with 4%Z in LH.
    rewrite (read_roi_entry _ "Top" _ _ _ _ _ U1 Zt LT), (read_roi_entry _ "Left" _ _ _ _ _ U2 Zl LL), (read_roi_entry _ "Height" _ _ _ _ _ U4 Zh LH).
    rewrite (read_roi_entry _ "Width" _ _ _ _ _ U3 (Z.lt_le_incl _ _ Zw) LW). cbn [fst snd].
    destruct (Qeq_bool (amount (Number (Datatypes.S kwidth) zwidth)) 0) eqn:E; [apply Qeq_bool_iff in E; contradiction|]. fold factor. rewrite Fn.
    rewrite map_map. reflexivity.
  - clear - ps. induction ps as [|[x y] ps IH]; [reflexivity|]. cbn [map all_some fst snd]. unfold pattern_name at 1, show_Z. destruct (Z.ltb_spec (Z.of_nat x) 0); [lia|].
    destruct (Z.ltb_spec (Z.of_nat y) 0); [lia|]. rewrite !Zabs2Nat.id. cbn [DetectorText.bind]. rewrite IH. cbn [DetectorText.bind]. f_equal. f_equal.
    unfold point_text. cbn [fst snd]. now rewrite !append_assoc.
Qed.
(** With a width of zero micrometers there is nothing to scale with: the rest is read. *)
Theorem C83_calibration_without_width : forall before es ps after0 ktop kleft kheight kwidth ztop zleft zheight top left height width u1 u2 u3 u4 u5 iw ih step,
  let d := before ++ Block "Calibration patterns" es :: after0 in
  Forall plain_block d -> ~ In "Calibration patterns" (map name (before ++ after0)) ->
  Forall2 point_entry es ps -> ps <> [] -> (forall l, In l (document after0) -> contains "Calibration (" l = false) ->
  has_block d "Electron image" image_labels -> says d "Electron image" "Resolution" (by_text iw ih) u5 -> every (fun a => negb (is_digit a)) u5 = true ->
  has_block d "Area" area_labels ->
  says d "Area" "Top" (length_text (Number (S ktop) ztop) top) u1 -> says d "Area" "Left" (length_text (Number (S kleft) zleft) left) u2 ->
  says d "Area" "Width" (length_text (Number (S kwidth) 0) width) u3 -> says d "Area" "Height" (length_text (Number (S kheight) zheight) height) u4 ->
  Forall (fun u => every (fun a => negb (is_digit a)) u = true) [u1; u2; u3; u4] -> (0 <= ztop)%Z -> (0 <= zleft)%Z -> (0 <= zheight)%Z ->
  calibration_settings (document d) step
  = Some {| indices := map (fun p => [Z.of_nat (snd p); Z.of_nat (fst p)]) ps; area := Some (Some (Z.of_nat ih, Z.of_nat iw));
            roi_origin := (Z.of_nat top, Z.of_nat left); roi_shape := (Z.of_nat height, Z.of_nat width);
            scaled := None |}.
Proof.
  intros before es ps after0 ktop kleft kheight kwidth ztop zleft zheight top left height width u1 u2 u3 u4 u5 iw ih step d P N F NE A BI I UI BR T L W H U Zt Zl Zh.
  destruct plain_names as (_ & _ & NR & NI & NC & _).
  inversion U as [|? ? U1 U']; subst. inversion U' as [|? ? U2 U'']; subst. inversion U'' as [|? ? U3 U''']; subst. inversion U''' as [|? ? U4 _]; subst. clear U U' U'' U'''.
  unfold calibration_settings.
  assert (B : blocks (document d) "[Calibration patterns]" = Z.of_nat (List.length (document before))) by (apply (blocks_at "Calibration patterns"); assumption).
  rewrite B. destruct (Z.eqb_spec (Z.of_nat (List.length (document before))) (-1)); [lia|].
  unfold d at 1. rewrite skip_to_entries.
  rewrite (read_indices_points es ps _ [] F) by
    (apply read_indices_none; intros l K; apply in_app_or in K as [[<-|[]]|K]; [reflexivity|now apply A]).
  rewrite app_nil_r. cbn [bind].
  assert (Fa : forallb (fun r => (List.length r =? 2)%nat) (map (fun p => [Z.of_nat (snd p); Z.of_nat (fst p)]) ps) = true)
    by (apply forallb_forall; intros r R; apply in_map_iff in R as (p & <- & _); reflexivity).
  destruct ps as [|p0 ps]; [contradiction|]. cbn [map]. change (List.length [Z.of_nat (snd p0); Z.of_nat (fst p0)]) with 2%nat.
  change ([Z.of_nat (snd p0); Z.of_nat (fst p0)] :: map (fun p => [Z.of_nat (snd p); Z.of_nat (fst p)]) ps) with (map (fun p => [Z.of_nat (snd p); Z.of_nat (fst p)]) (p0 :: ps)).
  rewrite Fa. cbn [negb].
  destruct (says_line _ _ _ 1 _ _ _ P NI BI eq_refl I) as (LI & _). change (heading "Electron image") with "[Electron image]" in LI. change (Z.of_nat 2) with 2%Z in LI. rewrite LI. cbn [bind].
  unfold entry_text. cbn [label value unit]. rewrite after_start.
  assert (NU : numbers (tabulator ++ by_text iw ih ++ tabulator ++ u5) = [show_nat iw; show_nat ih]).
  { unfold by_text. rewrite numbers_skip by reflexivity. rewrite !append_assoc. change ("x" ++ show_nat ih ++ tabulator ++ u5)%string with (String "x" (show_nat ih ++ tabulator ++ u5)).
    rewrite numbers_digits by (apply show_nat_nonempty || apply show_nat_digits || reflexivity). f_equal. rewrite numbers_skip1 by reflexivity.
    change (tabulator ++ u5)%string with (String (ascii_of_nat 9) u5).
    rewrite numbers_digits by (apply show_nat_nonempty || apply show_nat_digits || reflexivity). f_equal. rewrite numbers_skip1 by reflexivity. now apply numbers_none. }
  rewrite NU, !py_int_show.
  destruct (says_line _ _ _ 0 _ _ _ P NR BR eq_refl T) as (LT & _). destruct (says_line _ _ _ 1 _ _ _ P NR BR eq_refl L) as (LL & _).
  destruct (says_line _ _ _ 2 _ _ _ P NR BR eq_refl W) as (LW & _). destruct (says_line _ _ _ 3 _ _ _ P NR BR eq_refl H) as (LH & _).
  change (heading "Area") with "[Area]" in LT, LL, LW, LH. change (Z.of_nat 1) with 1%Z in LT. change (Z.of_nat 2) with 2%Z in LL.
  change (Z.of_nat 3) with 3%Z in LW. change (Z.of_nat 4) with 4%Z in LH.
  rewrite (read_roi_entry _ "Top" _ _ _ _ _ U1 Zt LT), (read_roi_entry _ "Left" _ _ _ _ _ U2 Zl LL), (read_roi_entry _ "Height" _ _ _ _ _ U4 Zh LH).
  rewrite (read_roi_entry _ "Width" _ _ _ _ _ U3 (Z.le_refl 0) LW). cbn [fst snd]. reflexivity.
Qed.
Print Assumptions C83_calibration_read.
(** The sample: 11 pixels are 4.5 micrometers, 3 steps. *)
Example C83_calibration_read_example :
  option_map (fun r => (roi_shape (snd (fst r)), scaled (snd (fst r)), snd r)) (calibration_reader (document sample))
  = Some ((8, 11)%Z, Some ([[Some 122; Some 116]; [Some 145; Some 80]], (Some 61, Some 41), (Some 2, Some 3), Some (Some 218, Some 273))%Z,
          ["Calibration (425,447).bmp"; "Calibration (294,532).bmp"]).
Proof. vm_compute. reflexivity. Qed.
(** Its hypotheses hold for the sample. *)
Example C83_calibration_read_hypotheses :
  let before := firstn 8 sample in let es := entries (nth 8 sample (Block "" [])) in
  sample = before ++ Block "Calibration patterns" es :: [] /\ Forall2 point_entry es [(425, 447); (294, 532)]%nat
  /\ says sample "Area" "Width" (length_text (Number 3 4500) 11) "um (px)" /\ says sample "Electron image" "Resolution" (by_text 1000 800) "px".
Proof.
  cbv zeta. split; [reflexivity|]. split; [repeat constructor; try (vm_compute; discriminate)|]. split; apply says_sample; vm_compute; reflexivity.
Qed.

(** An electron image with other than two numbers in its resolution: reading fails, although a resolution that is not found is allowed. *)
Theorem C83_image_resolution_refuted :
  calibration_reader (document (sample_entries "Ni" sample_microscope "1000")) = None
  /\ calibration_reader (map (fun l => if contains "1000x800" l then "" else l) (document sample)) <> None.
Proof. split; [vm_compute; reflexivity|vm_compute; discriminate]. Qed.

(** A scan read with the sizes in the setting file. *)
Theorem C83_scan_read : forall d st (f : file), get_settings_from_file Acquisition d = Some st ->
  (0 <= ny st)%Z -> (0 <= nx st)%Z -> (0 <= sy st)%Z -> (0 <= sx st)%Z ->
  Z.of_nat (List.length f) = (ny st * nx st * sy st * sx st)%Z ->
  exists sc, nordif_reader f None None (Some d) false = Some (sc, Some (sy st, sx st))
  /\ shape (data sc) = filter (fun n => negb (n =? 1)%nat) (map Z.to_nat [ny st; nx st; sy st; sx st]) /\ xmap_shape sc = map Z.to_nat [ny st; nx st].
Proof.
  intros d st f H Y X Sy Sx L. unfold nordif_reader. rewrite H. cbn [bind]. unfold file_reader. cbn [chosen_scan_size as_nordif f_nx f_ny f_sx f_sy].
  set (n := (Z.to_nat (ny st) * Z.to_nat (nx st) * Z.to_nat (sy st) * Z.to_nat (sx st))%nat).
  assert (E : List.length f = n) by (unfold n; nia). rewrite E, Nat.min_id, BinaryProofs.items_length, Nat.eqb_refl.
  eexists. split; [cbn [bind]; f_equal; f_equal; f_equal|split; reflexivity].
  revert H. clear. intros H. unfold get_settings_from_file in H.
  repeat match type of H with bind ?o _ = _ => destruct o; cbn [bind] in H; [|discriminate H] | (let '(_, _) := ?p in _) = _ => destruct p end.
  injection H as <-. reflexivity.
Qed.
Print Assumptions C83_scan_read.
Example C83_scan_read_example : option_map (fun r => (shape (data (fst r)), elems (data (fst r)), snd r)) (nordif_reader (map Z.of_nat (seq 0 48)) None None (Some (document sample)) false)
  = Some ([2; 3; 2; 4]%nat, map Z.of_nat (seq 0 48), Some (2, 4)%Z).
Proof. vm_compute. reflexivity. Qed.

(** With a pattern size as argument, patterns have that size but the detector has the shape in the setting file. *)
Theorem C83_detector_of_given_pattern_size_refuted : exists f content sc,
  nordif_reader f (Some (Pair 3 2)) (Some (2, 5)%nat) (Some content) false = Some (sc, Some (2, 4)%Z) /\ shape (data sc) = [2; 3; 5; 2]%nat.
Proof. exists (map Z.of_nat (seq 0 60)), (document sample). eexists. split; [vm_compute; reflexivity|reflexivity]. Qed.
(** Given sizes do not help if there is a setting file that cannot be read, although they are all that is needed without one. *)
Theorem C83_given_sizes_refuted : exists f content,
  nordif_reader f (Some (Pair 3 2)) (Some (2, 5)%nat) (Some content) false = None /\ nordif_reader f (Some (Pair 3 2)) (Some (2, 5)%nat) None false <> None.
Proof. exists (map Z.of_nat (seq 0 60)), ["[NORDIF]"]. split; [vm_compute; reflexivity|vm_compute; discriminate]. Qed.

(** White space around a number is ignored. *)
Definition white (s : string) : Prop := forall a, In a (list_ascii_of_string s) -> In (nat_of_ascii a) [9; 10; 11; 12; 13; 28; 29; 30; 31; 32; 133; 160]%nat.
Lemma white_space a : In (nat_of_ascii a) [9; 10; 11; 12; 13; 28; 29; 30; 31; 32; 133; 160]%nat -> is_space a = true.
Proof. unfold is_space. cbv zeta. intros H. cbn [In] in H. repeat (destruct H as [H|H]; [rewrite <- H; reflexivity|]). destruct H. Qed.
Lemma lstrip_white l : white l -> forall s, lstrip (l ++ s) = lstrip s.
Proof.
  induction l as [|a l IH]; intros W s; [reflexivity|]. cbn [String.append lstrip]. rewrite (white_space a) by (apply W; now left). apply IH. intros b Hb. apply W. now right.
Qed.
Lemma rstrip_all r : white r -> rstrip r = "".
Proof.
  induction r as [|a r IH]; intros W; [reflexivity|]. cbn [rstrip]. rewrite IH by (intros b Hb; apply W; now right). rewrite (white_space a) by (apply W; now left). reflexivity.
Qed.
Lemma rstrip_white r : white r -> forall s, rstrip (s ++ r) = rstrip s.
Proof.
  intros W. induction s as [|a s IH]; [apply rstrip_all; exact W|]. cbn [String.append rstrip]. rewrite IH. reflexivity.
Qed.
Lemma app_empty s : (s ++ "")%string = s.
Proof. induction s as [|a s IH]; [reflexivity|]. cbn [String.append]. rewrite IH. reflexivity. Qed.
Lemma lstrip_right r : white r -> forall s, lstrip (s ++ r) = match lstrip s with EmptyString => "" | t => (t ++ r)%string end.
Proof.
  intros W. induction s as [|a s IH].
  - cbn [String.append lstrip]. rewrite <- (app_empty r), (lstrip_white r W). reflexivity.
  - cbn [String.append lstrip]. destruct (is_space a); [exact IH|reflexivity].
Qed.
Lemma strip_white l s r : white l -> white r -> strip (l ++ s ++ r)%string = strip s.
Proof.
  intros L W. unfold strip. rewrite (lstrip_white l L), (lstrip_right r W). destruct (lstrip s) as [|a t]; [reflexivity|]. apply rstrip_white. exact W.
Qed.
Theorem C83_padded_numbers : forall l r s, white l -> white r -> py_int (l ++ s ++ r)%string = py_int s /\ py_float (l ++ s ++ r)%string = py_float s.
Proof. intros l r s L W. unfold py_int, py_float. rewrite (strip_white l s r L W). split; reflexivity. Qed.
Example C83_padded_example : white (tab ++ " ") /\ py_int (" " ++ "1200" ++ tab) = Some 1200%Z.
Proof. split; [|reflexivity]. intros a [<-|[<-|[]]]; cbn; tauto. Qed.
Print Assumptions C83_padded_numbers.
