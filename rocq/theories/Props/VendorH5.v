(** Scans read from EDAX and Oxford Instruments files (property C72). *)
From Coq Require Import Ascii String List Arith ZArith Reals Bool Lia Lra.
From Verif Require Import Model.Binary Model.Hdf5 Model.VendorH5 Spec.VendorFiles Spec.DetectorGeometry Proofs.BinaryProofs Proofs.Hdf5Proofs.
From Verif Require Model.Detector Model.BrukerRoi Model.KikuchipyH5 Proofs.DetectorProofs Props.Detector.
Import ListNotations.
Local Open Scope nat_scope.
Local Open Scope list_scope.

(** ** Entries *)
Lemma value_get r names g name x : value_at g name x -> ~ In name names -> (forall k, lstrip k = name -> ~ In k names) ->
  get (hdf5group2dict r names g) name = Some (Value x).
Proof.
  intros (c & k & m & -> & I & M & U) N1 N2. apply (get_child r names c name k m (Value x)).
  - split; [exact I|exact U].
  - destruct M as [[-> L]|[-> ->]]; unfold entries_of, entry_of_dataset.
    + rewrite (mem_not k names) by (now apply N2). cbn [Nat.eqb]. rewrite L. rewrite (mem_not name names) by exact N1. reflexivity.
    + rewrite (mem_not name names) by exact N1. reflexivity.
Qed.
Lemma numbers_get r names g name l : numbers_at g name l -> ~ In name names -> get (hdf5group2dict r names g) name = Some (Array [length l] (map Float l)).
Proof.
  intros (c & -> & I & L & U) N. apply (get_child r names c name name (Dataset [length l] (map Float l))).
  - split; [exact I|exact U].
  - unfold entries_of, entry_of_dataset. rewrite (mem_not name names) by exact N. destruct (length l) as [|[|n]]; [lia|lia|reflexivity].
Qed.
Lemma group_get g name h : group_at g name h -> get (hdf5group2dict true [] g) name = Some (Dict (hdf5group2dict true [] h)).
Proof.
  intros (c & cg & -> & -> & I & U). apply (get_child true [] c name name (Group cg)); [split; [exact I|exact U]|reflexivity].
Qed.
Lemma nothing_get r names g name : nothing_at g name -> get (hdf5group2dict r names g) name = None.
Proof. intros (c & -> & H). now apply get_missing. Qed.
Lemma header_value h name x : value_at h name x -> get (hdf5group2dict true [] h) name = Some (Value x).
Proof. intros H. apply value_get; auto. Qed.
Lemma header_size h name n : value_at h name (Int (Z.of_nat n)) -> size_in (hdf5group2dict true [] h) name = Some n.
Proof. intros H. unfold size_in. rewrite (header_value _ _ _ H). destruct (Z.leb_spec 0 (Z.of_nat n)); [now rewrite Nat2Z.id|lia]. Qed.
Lemma header_number h name x d : value_at h name (Float x) -> number_in (hdf5group2dict true [] h) name d = Some x.
Proof. intros H. unfold number_in. now rewrite (header_value _ _ _ H). Qed.
Lemma header_number_or h name d x : number_or h name d x -> number_in (hdf5group2dict true [] h) name d = Some x.
Proof. intros [H|[H ->]]; [now apply header_number|]. unfold number_in. now rewrite (nothing_get _ _ _ _ H). Qed.
Lemma data_column d name l : numbers_at d name l -> ~ In name pattern_names -> column_in (hdf5group2dict false pattern_names d) name = Some l.
Proof. intros H N. unfold column_in. rewrite (numbers_get _ _ _ _ _ H N). now rewrite all_floats. Qed.

(** ** Data and axes *)
Definition pixel_number (nx sy sx i j r c : nat) : nat := ((i * nx + j) * sy + r) * sx + c.
Lemma ravel4 ny nx sy sx i j r c : ravel [ny; nx; sy; sx] [i; j; r; c] = pixel_number nx sy sx i j r c.
Proof. unfold pixel_number. cbn [ravel size_of fold_right]. nia. Qed.
Lemma patterns_complete px ny nx sy sx : length px = ny * nx * sy * sx ->
  BrukerRoi.get_data [px] ny nx sy sx None = Some (squeeze (Nd [ny; nx; sy; sx] px)).
Proof. intros L. unfold BrukerRoi.get_data. cbn [bind concat]. rewrite app_nil_r, L, Nat.eqb_refl. reflexivity. Qed.
Lemma patterns_short px ny nx sy sx : length px < ny * nx * sy * sx ->
  BrukerRoi.get_data [px] ny nx sy sx None = Some (Nd [ny; nx; sy; sx] (px ++ repeat 0%Z (ny * nx * sy * sx - length px))).
Proof.
  intros L. unfold BrukerRoi.get_data. cbn [bind concat]. rewrite app_nil_r. destruct (Nat.eqb_spec (length px) (ny * nx * sy * sx)); [lia|].
  destruct (Nat.ltb_spec (ny * nx * sy * sx) (length px)); [lia|reflexivity].
Qed.

Section Fields.
Variables (ver7 : string -> bool) (shapes : string -> list (nat * nat)).
Lemma oxford_fields (processed : bool) version g h d ny nx sy sx dy dx px x y z ti e :
  oxford_scan g h d (if processed then "Processed Patterns" else "Unprocessed Patterns")%string ny nx sy sx dy dx px x y z ti e ->
  forall s, oxford_scan2dict ver7 shapes processed version g = Some s <->
  exists data b det, BrukerRoi.get_data [px] ny nx sy sx None = Some data /\ get_binning ver7 shapes (hdf5group2dict true [] h) version = Some b /\
    Detector.new_detector (Z.of_nat sy) (Z.of_nat sx) 1 (match b with Some n => INR n | None => 1 end) (rad2deg e - 90)%R 0 0 (rad2deg ti)
      (Detector.PCArray [ny; nx] (zip3 x y z)) "oxford" = Some det /\
    s = Scan data (KikuchipyH5.get_axes ny nx sy sx dy dx 1%R) det (get (hdf5group2dict true [] h) "Processed Static Background").
Proof.
  intros [Hh Hd Ry Rx Sy Sx Dy Dx Ti Eu Px Py Pz [L1 [L2 L3]] [sh Pat]] s. unfold oxford_scan2dict. rewrite Hh. cbn [bind]. rewrite Hd. cbn [bind].
  rewrite (header_size _ _ _ Ry), (header_size _ _ _ Rx). cbn [bind]. rewrite (header_size _ _ _ Sy), (header_size _ _ _ Sx). cbn [bind].
  rewrite (header_number_or _ _ _ _ Dy), (header_number_or _ _ _ _ Dx). cbn [bind]. unfold read_patterns. rewrite Pat. cbn [bind]. rewrite all_pixels. cbn [bind].
  unfold oxford_detector, oxford_pcs.
  rewrite (data_column _ _ _ Px) by (intros [|[|[]]]; discriminate). rewrite (data_column _ _ _ Py) by (intros [|[|[]]]; discriminate).
  rewrite (data_column _ _ _ Pz) by (intros [|[|[]]]; discriminate). cbn [bind]. rewrite L1, L2, L3, !Nat.eqb_refl. cbn [andb].
  destruct Px as (_ & _ & _ & Lx & _). rewrite L1 in Lx. destruct (Nat.ltb_spec 1 (ny * nx)); [|lia]. cbn [bind].
  assert (Ti' : number_in (hdf5group2dict true [] h) "Tilt Angle" (deg2rad 70) = Some ti).
  { apply header_number_or. destruct Ti as [Ti|[Ti ->]]; [now left|right; split; [exact Ti|]]. unfold deg2rad, Rdiv. ring. }
  rewrite Ti'. cbn [bind].
  replace (match get (hdf5group2dict true [] h) "Detector Orientation Euler" with
           | Some (Array _ (_ :: e0 :: _)) => let? e1 := number e0 in Some (rad2deg e1 - 90)%R | _ => Some 0%R end) with (Some (rad2deg e - 90)%R).
  2:{ destruct Eu as [(e1 & e3 & Eu)|[Eu ->]]; [rewrite (numbers_get _ _ _ _ _ Eu) by easy; reflexivity|].
      rewrite (nothing_get _ _ _ _ Eu). f_equal. unfold rad2deg. field. apply PI_neq0. }
  cbn [bind].
  destruct (BrukerRoi.get_data _ _ _ _ _ _) as [data|]; cbn [bind]; [|split; [discriminate|intros (? & ? & ? & ? & _); discriminate]].
  destruct (get_binning _ _ _ _) as [b|]; cbn [bind]; [|split; [discriminate|intros (? & ? & ? & ? & ? & _); discriminate]].
  destruct (Detector.new_detector _ _ _ _ _ _ _ _ _ _) as [det|] eqn:D; cbn [bind].
  - split.
    + intros H1. injection H1 as <-. exists data, b, det. auto.
    + intros (data' & b' & det' & E1 & E2 & E3 & ->). injection E1 as <-. injection E2 as <-. rewrite D in E3. now injection E3 as <-.
  - split; [discriminate|]. intros (data' & b' & det' & E1 & E2 & E3 & _). injection E2 as <-. congruence.
Qed.
Lemma edax_fields g h grid ny nx sy sx dy dx px x y z el az st :
  edax_scan g h grid ny nx sy sx dy dx px x y z el az st ->
  edax_scan2dict g = if (grid =? "SqrGrid")%string then
    let? data := BrukerRoi.get_data [px] ny nx sy sx None in
    let? det := Detector.new_detector (Z.of_nat sy) (Z.of_nat sx) 1 1 el az 0 st (Detector.PCArray [1] [Detector.PC x y z]) "edax" in
    Some (Scan data (KikuchipyH5.get_axes ny nx sy sx dy dx 1%R) det None)
  else None.
Proof.
  intros [Hh Gr Ry Rx Sy Sx Dy Dx El Az St PC [sh Pat]]. unfold edax_scan2dict. rewrite Hh. cbn [bind].
  rewrite (header_value _ _ _ Gr). destruct (String.eqb_spec grid "SqrGrid") as [->|NE].
  - rewrite (header_size _ _ _ Ry), (header_size _ _ _ Rx). cbn [bind]. rewrite (header_size _ _ _ Sy), (header_size _ _ _ Sx). cbn [bind].
    rewrite (header_number_or _ _ _ _ Dy), (header_number_or _ _ _ _ Dx). cbn [bind]. unfold read_patterns. rewrite Pat. cbn [bind]. rewrite all_pixels. cbn [bind].
    destruct (BrukerRoi.get_data _ _ _ _ _ _) as [data|]; cbn [bind]; [|reflexivity].
    rewrite (header_number_or _ _ _ _ El), (header_number_or _ _ _ _ Az), (header_number_or _ _ _ _ St). cbn [bind]. unfold dict_in.
    assert (Hf : forall g n v, number_or g n (1 / 2) v -> number_in (hdf5group2dict true [] g) n (/ 2) = Some v).
    { intros g' n v X. apply header_number_or. replace (/ 2)%R with (1 / 2)%R by (unfold Rdiv; ring). exact X. }
    destruct PC as [(pg & Pg & Px & Py & Pz)|(Pg & -> & -> & ->)].
    + rewrite (group_get _ _ _ Pg). cbn [bind]. rewrite (Hf _ _ _ Px), (Hf _ _ _ Py), (Hf _ _ _ Pz). reflexivity.
    + rewrite (nothing_get _ _ _ _ Pg). cbn [bind number_in get rev assoc]. replace (/ 2)%R with (1 / 2)%R by (unfold Rdiv; ring). reflexivity.
  - clear - NE. repeat (match goal with |- context [match ?t with EmptyString => _ | String _ _ => _ end] => destruct t as [|[[] [] [] [] [] [] [] []] ?]; try reflexivity; try congruence end).
Qed.
End Fields.

Lemma zip3_nth x y z k : k < length x -> length x = length y -> length x = length z ->
  nth_error (zip3 x y z) k = Some (Detector.PC (nth k x 0%R) (nth k y 0%R) (nth k z 0%R)).
Proof.
  revert y z k. induction x as [|a x IH]; intros [|b y] [|c z] [|k] H L1 L2; cbn in *; try lia; [reflexivity|]. apply IH; lia.
Qed.
Lemma oxford_position_kept sy sx b x y z : (0 < sy)%R ->
  bruker_position sy sx b 1 x (1 - y * (sx / sy)) (z * (sx / sy)) = oxford_position sy sx b 1 x y z.
Proof. intros H. unfold bruker_position, oxford_position. f_equal; field; lra. Qed.
Lemma edax_position_kept sy sx x y z : (0 < sy)%R -> (0 < sx)%R ->
  bruker_position sy sx 1 1 x (1 - y) (z * (Rmin sy sx / sy)) = tsl_position sy sx 1 1 x y z.
Proof.
  intros H H'. unfold bruker_position, tsl_position. rewrite !Rmult_1_r. f_equal; field; lra.
Qed.

(** ** Statements *)

(** A signal with the patterns of a map (or line, or point) at their places: the array has exactly the described axes *)
Definition axes_fit (s : scan) : Prop := map (fun a => ax_size a) (s_axes s) = shape (s_data s) /\ map (fun a => ax_index a) (s_axes s) = seq 0 (length (shape (s_data s))).
(** One PC, or one for each pattern of the map *)
Definition pcs_fit (s : scan) : Prop :=
  Detector.nav_shape (Detector.d_pc (s_detector s)) = [1] \/ Detector.nav_shape (Detector.d_pc (s_detector s)) ++ [Z.to_nat (Detector.d_ny (s_detector s)); Z.to_nat (Detector.d_nx (s_detector s))] = shape (s_data s).
(** The camera mode, if there is one, can be read. *)
Definition readable_camera (ver7 : string -> bool) (shapes : string -> list (nat * nat)) (version : string) (h : node) : Prop :=
  let name := (if ver7 version then "Camera Mode" else "Camera Binning Mode")%string in
  nothing_at h name \/ exists t, value_at h name (Text t) /\ forall w hgt, shapes t = [(w, hgt)] -> hgt <> 0.

Section Statements.
Variables (ver7 : string -> bool) (shapes : string -> list (nat * nat)).
Lemma binning_readable h version : readable_camera ver7 shapes version h -> exists b, get_binning ver7 shapes (hdf5group2dict true [] h) version = Some b.
Proof.
  unfold readable_camera, get_binning. cbv zeta. intros [H|(t & H & Z)].
  - rewrite (nothing_get _ _ _ _ H). eauto.
  - rewrite (header_value _ _ _ H). destruct (shapes t) as [|[w hgt] [|]]; eauto. specialize (Z w hgt eq_refl).
    destruct (hgt =? 88); [eauto|]. destruct (Nat.eqb_spec hgt 0); [contradiction|eauto].
Qed.

(** Maps from Oxford Instruments files: every pattern, with its PC, is at its place. *)
Theorem C72_oxford_maps (processed : bool) version g h d ny nx sy sx dy dx px x y z ti e :
  oxford_scan g h d (if processed then "Processed Patterns" else "Unprocessed Patterns")%string ny nx sy sx dy dx px x y z ti e ->
  readable_camera ver7 shapes version h -> 2 <= ny -> 2 <= nx -> 2 <= sy -> 2 <= sx -> length px = ny * nx * sy * sx ->
  exists s, oxford_scan2dict ver7 shapes processed version g = Some s /\ axes_fit s /\ pcs_fit s /\
    shape (s_data s) = [ny; nx; sy; sx] /\
    (forall i j r c, i < ny -> j < nx -> r < sy -> c < sx -> at_ (s_data s) [i; j; r; c] = nth_error px (pixel_number nx sy sx i j r c)) /\
    map (fun a => ax_name a) (s_axes s) = ["y"; "x"; "dy"; "dx"]%string /\ map (fun a => ax_scale a) (s_axes s) = [dy; dx; 1; 1]%R /\
    (let det := s_detector s in Detector.d_ny det = Z.of_nat sy /\ Detector.d_nx det = Z.of_nat sx /\ Detector.d_sample_tilt det = rad2deg ti /\ Detector.d_tilt det = (rad2deg e - 90)%R /\
     forall i j, i < ny -> j < nx -> exists q, nth_error (Detector.pcs (Detector.d_pc det)) (i * nx + j) = Some q /\
       bruker_position (INR sy) (INR sx) (Detector.d_binning det) 1 (Detector.pcx q) (Detector.pcy q) (Detector.pcz q)
       = oxford_position (INR sy) (INR sx) (Detector.d_binning det) 1 (nth (i * nx + j) x 0%R) (nth (i * nx + j) y 0%R) (nth (i * nx + j) z 0%R)).
Proof.
  intros H C Hny Hnx Hsy Hsx L. destruct (binning_readable _ _ C) as [b B].
  assert (LL : length x = ny * nx /\ length y = ny * nx /\ length z = ny * nx) by apply H.
  pose proof (oxford_fields ver7 shapes processed version g h d ny nx sy sx dy dx px x y z ti e H) as F.
  set (bin := match b with Some n => INR n | None => 1%R end) in *.
  eexists. split; [apply F; eexists; eexists; eexists; split; [apply patterns_complete, L|]; split; [exact B|]; split; reflexivity|].
  cbn [s_data s_axes s_detector]. 
  assert (N : forall n, 2 <= n -> (n =? 1) = false) by (intros n ?; apply Nat.eqb_neq; lia).
  assert (SQ : squeeze (Nd [ny; nx; sy; sx] px) = Nd [ny; nx; sy; sx] px) by (unfold squeeze, squeeze_shape; cbn [shape filter elems]; rewrite !N by assumption; reflexivity).
  rewrite SQ. unfold axes_fit, pcs_fit, KikuchipyH5.get_axes. cbn [s_data s_axes s_detector shape]. rewrite !N by assumption. cbn [negb].
  split; [split; reflexivity|]. split; [right; unfold Detector.with_pc; cbn [Detector.d_pc Detector.nav_shape Detector.map_pc Detector.d_ny Detector.d_nx app]; now rewrite !Nat2Z.id|].
  split; [reflexivity|]. split.
  { intros i j r c Hi Hj Hr Hc. unfold at_. cbn [shape elems]. now rewrite ravel4. }
  split; [reflexivity|]. split; [reflexivity|]. cbv zeta. unfold Detector.with_pc. cbn [Detector.d_ny Detector.d_nx Detector.d_sample_tilt Detector.d_tilt Detector.d_pc Detector.map_pc Detector.pcs Detector.d_binning].
  do 4 (split; [reflexivity|]). intros i j Hi Hj. assert (K : i * nx + j < length x) by (rewrite (proj1 LL); nia).
  rewrite nth_error_map. rewrite zip3_nth by lia. cbn [option_map]. eexists. split; [reflexivity|].
  unfold Detector.pc_oxford2bruker, Detector.aspect_ratio, Detector.nrows, Detector.ncols. cbn [Detector.pcx Detector.pcy Detector.pcz Detector.d_ny Detector.d_nx].
  rewrite <- !INR_IZR_INZ. apply oxford_position_kept. apply lt_0_INR. lia.
Qed.

(** Binning: the quotient of 1024 and the height of the camera mode, except for the cropped mode. *)
Theorem C72_oxford_binning (processed : bool) version g h d ny nx sy sx dy dx px x y z ti e s t w hgt b :
  oxford_scan g h d (if processed then "Processed Patterns" else "Unprocessed Patterns")%string ny nx sy sx dy dx px x y z ti e ->
  oxford_scan2dict ver7 shapes processed version g = Some s ->
  value_at h (if ver7 version then "Camera Mode" else "Camera Binning Mode")%string (Text t) -> shapes t = [(w, hgt)] ->
  (hgt * b = 1024 \/ (hgt = 88 /\ b = 8)) -> Detector.d_binning (s_detector s) = INR b.
Proof.
  intros H S V E Hb. apply (oxford_fields ver7 shapes processed version g h d ny nx sy sx dy dx px x y z ti e H) in S.
  destruct S as (data & b' & det & _ & B & D & ->). cbn [s_detector].
  assert (D' : Detector.d_binning det = match b' with Some n => INR n | None => 1%R end).
  { unfold Detector.new_detector in D. destruct (Detector.get_pc_convention "oxford"); [|discriminate]. injection D as <-. reflexivity. }
  rewrite D'. clear D D'. unfold get_binning in B. rewrite (header_value _ _ _ V), E in B.
  destruct (Nat.eqb_spec hgt 88) as [->|N].
  - injection B as <-. destruct Hb as [Hb|[_ ->]]; [|reflexivity]. exfalso. clear -Hb. lia.
  - destruct Hb as [Hb|[Hb _]]; [|contradiction]. destruct (Nat.eqb_spec hgt 0) as [->|N0]; [discriminate|]. injection B as <-. f_equal.
    unfold round_quotient. rewrite <- Hb. rewrite (Nat.mul_comm hgt b). rewrite Nat.div_mul, Nat.mod_mul by exact N0.
    destruct (Nat.ltb_spec (2 * 0) hgt); [reflexivity|lia].
Qed.

(** Other heights: the nearest integer to the quotient of 1024 and the height, the even one of two that are as near. *)
Lemma round_quotient_nearest a b : b <> 0 -> let q := Z.of_nat (round_quotient a b) in
  (2 * Z.abs (Z.of_nat a - q * Z.of_nat b) <= Z.of_nat b)%Z /\
  ((2 * Z.abs (Z.of_nat a - q * Z.of_nat b) = Z.of_nat b)%Z -> Nat.Even (round_quotient a b)).
Proof.
  intros N. cbv zeta. unfold round_quotient. pose proof (Nat.div_mod a b N) as E. pose proof (Nat.mod_upper_bound a b N) as U.
  set (q := a / b) in *. set (r := a mod b) in *.
  destruct (Nat.ltb_spec (2 * r) b) as [A|A]; [split; nia|].
  destruct (Nat.ltb_spec b (2 * r)) as [B|B]; [split; nia|].
  destruct (Nat.even q) eqn:Q; [split; [nia|]; intros _; now apply Nat.even_spec|].
  split; [nia|]. intros _. apply Nat.even_spec. rewrite Nat.even_succ, <- Nat.negb_even, Q. reflexivity.
Qed.
Theorem C72_oxford_binning_rounded (processed : bool) version g h d ny nx sy sx dy dx px x y z ti e s t w hgt :
  oxford_scan g h d (if processed then "Processed Patterns" else "Unprocessed Patterns")%string ny nx sy sx dy dx px x y z ti e ->
  oxford_scan2dict ver7 shapes processed version g = Some s ->
  value_at h (if ver7 version then "Camera Mode" else "Camera Binning Mode")%string (Text t) -> shapes t = [(w, hgt)] ->
  hgt <> 88 -> exists b, Detector.d_binning (s_detector s) = INR b /\
    (2 * Z.abs (1024 - Z.of_nat b * Z.of_nat hgt) <= Z.of_nat hgt)%Z /\
    ((2 * Z.abs (1024 - Z.of_nat b * Z.of_nat hgt) = Z.of_nat hgt)%Z -> Nat.Even b).
Proof.
  intros H S V E N. apply (oxford_fields ver7 shapes processed version g h d ny nx sy sx dy dx px x y z ti e H) in S.
  destruct S as (data & b' & det & _ & B & D & ->). cbn [s_detector].
  assert (D' : Detector.d_binning det = match b' with Some n => INR n | None => 1%R end).
  { unfold Detector.new_detector in D. destruct (Detector.get_pc_convention "oxford"); [|discriminate]. injection D as <-. reflexivity. }
  rewrite D'. clear D D'. unfold get_binning in B. rewrite (header_value _ _ _ V), E in B.
  destruct (Nat.eqb_spec hgt 88) as [->|_]; [contradiction|].
  destruct (Nat.eqb_spec hgt 0) as [->|N0]; [discriminate|]. injection B as <-.
  exists (round_quotient 1024 hgt). split; [reflexivity|]. exact (round_quotient_nearest 1024 hgt N0).
Qed.

(** Line scans from Oxford Instruments files: the patterns are right, but the PCs are in an array of one row, which does
    not fit the signal. *)
Theorem C72_oxford_lines_refuted (processed : bool) version g h d nx sy sx dy dx px x y z ti e :
  oxford_scan g h d (if processed then "Processed Patterns" else "Unprocessed Patterns")%string 1 nx sy sx dy dx px x y z ti e ->
  readable_camera ver7 shapes version h -> 2 <= nx -> 2 <= sy -> 2 <= sx -> length px = nx * sy * sx ->
  exists s, oxford_scan2dict ver7 shapes processed version g = Some s /\ axes_fit s /\ shape (s_data s) = [nx; sy; sx] /\
    (forall j r c, j < nx -> r < sy -> c < sx -> at_ (s_data s) [j; r; c] = nth_error px (pixel_number nx sy sx 0 j r c)) /\
    Detector.nav_shape (Detector.d_pc (s_detector s)) = [1; nx] /\ ~ pcs_fit s.
Proof.
  intros H C Hnx Hsy Hsx L. destruct (binning_readable _ _ C) as [b B].
  pose proof (oxford_fields ver7 shapes processed version g h d 1 nx sy sx dy dx px x y z ti e H) as F.
  set (bin := match b with Some n => INR n | None => 1%R end) in *.
  eexists. split; [apply F; eexists; eexists; eexists; split; [apply patterns_complete; rewrite L; lia|]; split; [exact B|]; split; reflexivity|].
  cbn [s_data s_axes s_detector].
  assert (N : forall n, 2 <= n -> (n =? 1) = false) by (intros n ?; apply Nat.eqb_neq; lia).
  assert (SQ : squeeze (Nd [1; nx; sy; sx] px) = Nd [nx; sy; sx] px) by (unfold squeeze, squeeze_shape; cbn [shape filter elems]; rewrite (N nx), (N sy), (N sx) by assumption; reflexivity).
  rewrite SQ. unfold axes_fit, pcs_fit, KikuchipyH5.get_axes. cbn [s_data s_axes s_detector shape]. rewrite (N nx) by assumption. cbn [negb Nat.eqb].
  destruct (Nat.ltb_spec nx 1); [lia|].
  split; [split; reflexivity|]. split; [reflexivity|]. split.
  { intros j r c Hj Hr Hc. unfold at_. cbn [shape elems]. f_equal. unfold pixel_number. cbn [ravel size_of fold_right]. nia. }
  split; [reflexivity|]. unfold Detector.with_pc. cbn [Detector.d_pc Detector.nav_shape Detector.map_pc Detector.d_ny Detector.d_nx app].
  intros [E|E]; discriminate.
Qed.

(** EDAX files: patterns and PC of maps, refusal of other grids. *)
Theorem C72_edax_maps g h grid ny nx sy sx dy dx px x y z el az st : edax_scan g h grid ny nx sy sx dy dx px x y z el az st ->
  2 <= ny -> 2 <= nx -> 2 <= sy -> 2 <= sx -> length px = ny * nx * sy * sx ->
  (grid <> "SqrGrid"%string -> edax_scan2dict g = None) /\
  (grid = "SqrGrid"%string -> exists s, edax_scan2dict g = Some s /\ axes_fit s /\ pcs_fit s /\ shape (s_data s) = [ny; nx; sy; sx] /\
    (forall i j r c, i < ny -> j < nx -> r < sy -> c < sx -> at_ (s_data s) [i; j; r; c] = nth_error px (pixel_number nx sy sx i j r c)) /\
    map (fun a => ax_name a) (s_axes s) = ["y"; "x"; "dy"; "dx"]%string /\ map (fun a => ax_scale a) (s_axes s) = [dy; dx; 1; 1]%R /\
    (let det := s_detector s in Detector.d_ny det = Z.of_nat sy /\ Detector.d_nx det = Z.of_nat sx /\ Detector.d_sample_tilt det = st /\ Detector.d_tilt det = el /\ Detector.d_azimuthal det = az /\
     exists q, Detector.pcs (Detector.d_pc det) = [q] /\
       bruker_position (INR sy) (INR sx) 1 1 (Detector.pcx q) (Detector.pcy q) (Detector.pcz q) = tsl_position (INR sy) (INR sx) 1 1 x y z)).
Proof.
  intros H Hny Hnx Hsy Hsx L. rewrite (edax_fields g h grid ny nx sy sx dy dx px x y z el az st H).
  destruct (String.eqb_spec grid "SqrGrid") as [->|NE]; [|split; [reflexivity|contradiction]]. split; [easy|intros _].
  rewrite (patterns_complete px ny nx sy sx L). cbn [bind]. eexists. split; [reflexivity|]. cbn [s_data s_axes s_detector].
  assert (N : forall n, 2 <= n -> (n =? 1) = false) by (intros n ?; apply Nat.eqb_neq; lia).
  assert (SQ : squeeze (Nd [ny; nx; sy; sx] px) = Nd [ny; nx; sy; sx] px) by (unfold squeeze, squeeze_shape; cbn [shape filter elems]; rewrite !N by assumption; reflexivity).
  rewrite SQ. unfold axes_fit, pcs_fit, KikuchipyH5.get_axes. cbn [s_data s_axes s_detector shape]. rewrite !N by assumption. cbn [negb].
  split; [split; reflexivity|]. split; [left; reflexivity|]. split; [reflexivity|]. split.
  { intros i j r c Hi Hj Hr Hc. unfold at_. cbn [shape elems]. now rewrite ravel4. }
  split; [reflexivity|]. split; [reflexivity|]. cbv zeta. unfold Detector.with_pc. cbn [Detector.d_ny Detector.d_nx Detector.d_sample_tilt Detector.d_tilt Detector.d_azimuthal Detector.d_pc Detector.map_pc Detector.pcs map].
  do 5 (split; [reflexivity|]). eexists. split; [reflexivity|].
  unfold Detector.pc_tsl2bruker, Detector.nrows, Detector.ncols. cbn [Detector.pcx Detector.pcy Detector.pcz Detector.d_ny Detector.d_nx].
  rewrite <- !INR_IZR_INZ. apply edax_position_kept; apply lt_0_INR; lia.
Qed.

(** Incomplete files: all pixels in the file are at their places, the others are zero. The described axes fit maps, but not
    lines. *)
Theorem C72_incomplete_files g h ny nx sy sx dy dx px x y z el az st : edax_scan g h "SqrGrid" ny nx sy sx dy dx px x y z el az st ->
  length px < ny * nx * sy * sx ->
  exists s, edax_scan2dict g = Some s /\ shape (s_data s) = [ny; nx; sy; sx] /\
    (forall i j r c, i < ny -> j < nx -> r < sy -> c < sx ->
       at_ (s_data s) [i; j; r; c] = Some (nth (pixel_number nx sy sx i j r c) px 0%Z)) /\
    (axes_fit s <-> ny <> 1 /\ nx <> 1).
Proof.
  intros H L. rewrite (edax_fields g h _ ny nx sy sx dy dx px x y z el az st H). cbn [String.eqb Ascii.eqb Bool.eqb].
  rewrite (patterns_short px ny nx sy sx L). cbn [bind]. eexists. split; [reflexivity|]. cbn [s_data s_axes shape]. split; [reflexivity|]. split.
  - intros i j r c Hi Hj Hr Hc. unfold at_. cbn [shape elems]. rewrite ravel4.
    assert (K : pixel_number nx sy sx i j r c < ny * nx * sy * sx) by (rewrite <- (ravel4 ny); assert (ravel [ny; nx; sy; sx] [i; j; r; c] < size_of [ny; nx; sy; sx]) by (apply ravel_lt; cbn; auto); cbn [size_of fold_right] in *; nia).
    set (k := pixel_number nx sy sx i j r c) in *. rewrite (nth_error_nth' _ 0%Z) by (rewrite app_length, repeat_length; lia). f_equal.
    destruct (Nat.lt_ge_cases k (length px)); [now rewrite app_nth1|]. rewrite app_nth2 by assumption. rewrite nth_overflow with (l := px) by assumption. apply nth_repeat.
  - unfold axes_fit, KikuchipyH5.get_axes. cbn [s_data s_axes shape].
    destruct (Nat.eqb_spec ny 1), (Nat.eqb_spec nx 1); cbn [negb].
    + split; [|lia]. intros [E _]. discriminate.
    + split; [|lia]. intros [E _]. apply (f_equal (@length nat)) in E. rewrite map_length in E. destruct (nx <? ny); discriminate.
    + split; [|lia]. intros [E _]. apply (f_equal (@length nat)) in E. rewrite map_length in E. destruct (nx <? ny); discriminate.
    + split; [auto|]. intros _. split; reflexivity.
Qed.
End Statements.

(** ** Accepted files *)
(** A file is read if and only if it says who made it and with which version, the maker is one of four, and one of its groups is a scan. *)
Theorem C72_accepted_files file mv : check_file file = Some mv <->
  manufacturer_version file = Some mv /\ In (fst mv) ["bruker nano"; "edax"; "kikuchipy"; "oxford instruments"]%string /\
  exists name g, In (name, g) (scan_groups file) /\ path g ["EBSD"; "Data"]%string <> None /\ path g ["EBSD"; "Header"]%string <> None.
Proof.
  unfold check_file. destruct (manufacturer_version file) as [mv'|]; cbn [bind]; [|split; [discriminate|intros [H _]; discriminate]].
  assert (S : forall n, is_scan n = true <-> path n ["EBSD"; "Data"]%string <> None /\ path n ["EBSD"; "Header"]%string <> None).
  { intros n. unfold is_scan. destruct (path n ["EBSD"; "Data"]%string), (path n ["EBSD"; "Header"]%string); split; try discriminate; try (intros [A B]; congruence); split; congruence. }
  assert (X : existsb (fun kn => is_scan (snd kn)) (scan_groups file) = true <->
    exists name g, In (name, g) (scan_groups file) /\ path g ["EBSD"; "Data"]%string <> None /\ path g ["EBSD"; "Header"]%string <> None).
  { rewrite existsb_exists. split.
    - intros ([k g] & I & E). cbn [snd] in E. exists k, g. split; [exact I|]. apply S. exact E.
    - intros (k & g & I & E). exists (k, g). split; [exact I|]. apply S. exact E. }
  assert (Y : mem (fst mv') ["bruker nano"; "edax"; "kikuchipy"; "oxford instruments"]%string = true <-> In (fst mv') ["bruker nano"; "edax"; "kikuchipy"; "oxford instruments"]%string).
  { unfold mem. rewrite existsb_exists. split; [intros (x & I & E); apply String.eqb_eq in E; now subst|intros I; exists (fst mv'); split; [exact I|apply String.eqb_refl]]. }
  destruct (_ && _) eqn:C.
  - apply andb_true_iff in C. destruct C as [C1 C2]. split; [|intros (E & _); exact E]. intros E. injection E as <-. split; [reflexivity|]. split; [apply Y; exact C2|apply X; exact C1].
  - split; [discriminate|]. intros (E & M & G). injection E as <-. apply Y in M. apply X in G. rewrite M, G in C. discriminate.
Qed.

(** ** Choice of scans *)

(** Requested scans are returned in the requested order; missing ones are left out, or refused if only one is requested. *)
Theorem C72_requested_scans file names : NoDup (map fst file) ->
  (forall scans, desired_scan_groups file (Some names) = Some scans ->
     exists found, Forall (fun k => In k names) found /\ Forall2 (fun k s => In (k, s) file /\ is_group s = true) found scans /\
       (forall k, In k names -> (exists c, In (k, Group c) file) -> In k found)) /\
  (desired_scan_groups file (Some names) = None <-> exists k, names = [k] /\ forall c, ~ In (k, Group c) file).
Proof.
  intros U. assert (A : forall k s, assoc (scan_groups file) k = Some s <-> In (k, s) file /\ is_group s = true).
  { intros k s. split.
    - intros E. apply assoc_in in E. now apply filter_In in E.
    - intros [I G]. apply assoc_unique; [apply filter_In; auto|]. intros b Hb. apply filter_In in Hb. destruct Hb as [Hb _].
      revert U I Hb. clear. induction file as [|[k' n] l IH]; [easy|]. cbn. intros U. inversion U as [|? ? N U']; subst.
      intros [E|I] [E'|I']; [congruence| | |auto].
      + injection E as -> ->. exfalso. apply N. apply (in_map fst) in I'. exact I'.
      + injection E' as -> ->. exfalso. apply N. apply (in_map fst) in I. exact I. }
  set (found := filter (fun k => match assoc (scan_groups file) k with Some _ => true | None => false end) names).
  assert (F : flat_map (fun k => match assoc (scan_groups file) k with Some s => [s] | None => [] end) names
    = flat_map (fun k => match assoc (scan_groups file) k with Some s => [s] | None => [] end) found).
  { unfold found. clear. induction names as [|k l IH]; [reflexivity|]. cbn. destruct (assoc (scan_groups file) k) eqn:E; cbn; [rewrite E; cbn; congruence|exact IH]. }
  assert (G : Forall (fun k => In k names) found /\ Forall2 (fun k s => In (k, s) file /\ is_group s = true) found
      (flat_map (fun k => match assoc (scan_groups file) k with Some s => [s] | None => [] end) found) /\
      (forall k, In k names -> (exists c, In (k, Group c) file) -> In k found)).
  { split; [apply Forall_forall; intros k I; now apply filter_In in I|]. split.
    - unfold found. clear -A. induction names as [|k l IH]; [constructor|]. cbn [filter]. destruct (assoc (scan_groups file) k) as [s|] eqn:E; [|exact IH].
      cbn [flat_map]. rewrite E. cbn [app]. constructor; [now apply A|exact IH].
    - intros k I (c & J). apply filter_In. split; [exact I|]. assert (E : assoc (scan_groups file) k = Some (Group c)) by (apply A; auto). now rewrite E. }
  assert (N : forall k, assoc (scan_groups file) k = None <-> forall c, ~ In (k, Group c) file).
  { intros k. split.
    - intros E c I. assert (X : assoc (scan_groups file) k = Some (Group c)) by (apply A; auto). congruence.
    - intros H. destruct (assoc (scan_groups file) k) as [[sh es|c]|] eqn:E; [apply A in E; destruct E; discriminate|apply A in E; destruct E as [I _]; now apply H in I|reflexivity]. }
  unfold desired_scan_groups. rewrite F. fold found. destruct names as [|k [|k2 l]].
  - split; [intros scans [= <-]; exists found; exact G|split; [discriminate|intros (k & E & _); discriminate]].
  - destruct (assoc (scan_groups file) k) as [s|] eqn:E.
    + split; [|split; [discriminate|intros (k' & [= <-] & H); apply N in H; congruence]]. intros scans [= <-]. exists [k]. split; [constructor; [now left|constructor]|].
      split; [constructor; [now apply A|constructor]|]. intros k' [<-|[]] _. now left.
    + split; [discriminate|]. split; [intros _; exists k; split; [reflexivity|now apply N]|reflexivity].
  - split; [intros scans [= <-]; exists found; exact G|split; [discriminate|intros (k' & E & _); discriminate]].
Qed.

(** The scans come in the order in which they are requested, once for each request: each requested name is answered by
    the group of that name or, if there is none, by nothing. *)
Theorem C72_requested_order file names scans : NoDup (map fst file) ->
  desired_scan_groups file (Some names) = Some scans ->
  exists answers : list (option node),
    Forall2 (fun k answer => match answer with
                             | Some s => In (k, s) file /\ is_group s = true
                             | None => forall c, ~ In (k, Group c) file
                             end) names answers /\
    scans = flat_map (fun answer => match answer with Some s => [s] | None => [] end) answers.
Proof.
  intros U D. assert (A : forall k s, assoc (scan_groups file) k = Some s <-> In (k, s) file /\ is_group s = true).
  { intros k s. split.
    - intros E. apply assoc_in in E. now apply filter_In in E.
    - intros [I G]. apply assoc_unique; [apply filter_In; auto|]. intros b Hb. apply filter_In in Hb. destruct Hb as [Hb _].
      clear D. revert U I Hb. clear. induction file as [|[k' n] l IH]; [easy|]. cbn. intros U. inversion U as [|? ? N U']; subst.
      intros [E|I] [E'|I']; [congruence| | |auto].
      + injection E as -> ->. exfalso. apply N. apply (in_map fst) in I'. exact I'.
      + injection E' as -> ->. exfalso. apply N. apply (in_map fst) in I. exact I. }
  exists (map (assoc (scan_groups file)) names). split.
  - clear D. induction names as [|k l IH]; [constructor|]. cbn. constructor; [|exact IH].
    destruct (assoc (scan_groups file) k) as [s|] eqn:E; [now apply A|]. intros c I.
    assert (X : assoc (scan_groups file) k = Some (Group c)) by (apply A; auto). congruence.
  - assert (F : scans = flat_map (fun k => match assoc (scan_groups file) k with Some s => [s] | None => [] end) names).
    { unfold desired_scan_groups in D. destruct names as [|k [|k2 l]]; try congruence.
      cbn. destruct (assoc (scan_groups file) k) as [s|] eqn:E; [cbn; congruence|discriminate]. }
    rewrite F. clear. induction names as [|k l IH]; [reflexivity|]. cbn. now rewrite IH.
Qed.

(** Without a request, the first group is returned: the first scan if all groups are scans. *)
Theorem C72_default_scan_partial file k s rest : scan_groups file = (k, s) :: rest -> desired_scan_groups file None = Some [s].
Proof. intros H. unfold desired_scan_groups. now rewrite H. Qed.

(** A small file with one scan *)
Definition small_header : node := Group [("Detector Orientation Euler", Dataset [3] (map Float [0; 3; 0]%R)); ("Pattern Height", Dataset [1] [Int 2]);
  ("Pattern Width", Dataset [1] [Int 2]); ("Tilt Angle", Dataset [] [Float 1%R]); ("X Cells", Dataset [1] [Int 3]); ("X Step", Dataset [1] [Float 2%R]);
  ("Y Cells", Dataset [1] [Int 2]); ("Y Step", Dataset [1] [Float 3%R])]%string.
Definition small_pixels : list Z := map Z.of_nat (seq 0 24).
Definition small_data : node := Group [("Detector Distance", Dataset [6] (map Float [1; 2; 3; 4; 5; 6]%R)); ("Pattern Center X", Dataset [6] (map Float [1; 2; 3; 4; 5; 6]%R));
  ("Pattern Center Y", Dataset [6] (map Float [1; 2; 3; 4; 5; 6]%R)); ("Processed Patterns", Dataset [6; 2; 2] (map Int small_pixels))]%string.
Definition small_scan : node := Group [("EBSD", Group [("Data", small_data); ("Header", small_header)])]%string.
Definition small_file : list (string * node) :=
  [("1", small_scan); ("Format Version", Dataset [] [Text "5.0"]); ("Manufacturer", Dataset [] [Text "Oxford Instruments"])]%string.
Ltac names := simpl; intros ? ? H H'; repeat (destruct H as [H|H]; [injection H as <- <-; cbn in H'; try reflexivity; destruct H' as [H'|H']; discriminate|]); destruct H.
Ltac value sh := match goal with |- value_at _ ?k ?x => eexists; exists k, (Dataset sh [x]) end; split; [reflexivity|]; split; [simpl; tauto|];
  split; [first [left; split; [reflexivity|reflexivity]|right; split; reflexivity]|names].
Ltac numbers := eexists; split; [reflexivity|]; split; [simpl; tauto|]; split; [simpl; lia|]; names.
Example small_scan_example : oxford_scan small_scan small_header small_data "Processed Patterns" 2 3 2 2 3 2 small_pixels
  [1; 2; 3; 4; 5; 6]%R [1; 2; 3; 4; 5; 6]%R [1; 2; 3; 4; 5; 6]%R 1 3.
Proof.
  constructor; try reflexivity.
  - value [1].
  - value [1].
  - value [1].
  - value [1].
  - left. value [1].
  - left. value [1].
  - left. value (@nil nat).
  - left. exists 0%R, 0%R. numbers.
  - numbers.
  - numbers.
  - numbers.
  - auto.
  - eexists. reflexivity.
Qed.
(** An EDAX scan without step sizes, angles and projection center *)
Definition bare_header : node := Group [("Grid Type", Dataset [1] [Text "SqrGrid"]); ("Pattern Height", Dataset [1] [Int 2]);
  ("Pattern Width", Dataset [1] [Int 2]); ("nColumns", Dataset [1] [Int 3]); ("nRows", Dataset [1] [Int 2])]%string.
Definition bare_scan : node := Group [("EBSD", Group [("Data", Group [("Pattern", Dataset [6; 2; 2] (map Int small_pixels))]); ("Header", bare_header)])]%string.
Ltac nothing := eexists; split; [reflexivity|]; simpl; intros ? ? H; repeat (destruct H as [H|H]; [injection H as <- <-; split; discriminate|]); destruct H.
Example bare_scan_example : edax_scan bare_scan bare_header "SqrGrid" 2 3 2 2 1 1 small_pixels (1 / 2) (1 / 2) (1 / 2) 0 0 70.
Proof.
  constructor; try reflexivity.
  1-5: value [1].
  1-5: right; split; [nothing|reflexivity].
  - right. split; [nothing|repeat split; reflexivity].
  - eexists. reflexivity.
Qed.
Example small_camera ver7 shapes version : readable_camera ver7 shapes version small_header.
Proof. left. eexists. split; [reflexivity|]. simpl. intros k m H. destruct (ver7 version); repeat (destruct H as [H|H]; [injection H as <- <-; split; discriminate|]); destruct H. Qed.
Example small_file_example : check_file small_file = Some ("oxford instruments", "5.0")%string.
Proof. reflexivity. Qed.

(** Documented: the first scan is returned by default. With another group before it, the file is refused. *)
Theorem C72_default_scan_refuted ver7 shapes processed :
  exists file, (exists s, read_oxford ver7 shapes processed file (Some ["1"]%string) = Some [s]) /\ read_oxford ver7 shapes processed file None = None.
Proof.
  set (header := Group [("Pattern Height", Dataset [1] [Int 2]); ("Pattern Width", Dataset [1] [Int 2]); ("X Cells", Dataset [1] [Int 1]); ("Y Cells", Dataset [1] [Int 1])]%string).
  set (data := Group [("Processed Patterns", Dataset [1; 2; 2] (map Int [1; 2; 3; 4]%Z)); ("Unprocessed Patterns", Dataset [1; 2; 2] (map Int [1; 2; 3; 4]%Z))]%string).
  set (file := [("0 Notes", Group []); ("1", Group [("EBSD", Group [("Data", data); ("Header", header)])]); ("Format Version", Dataset [] [Text "5.0"]); ("Manufacturer", Dataset [] [Text "Oxford Instruments"])]%string).
  exists file. split; [|reflexivity]. unfold read_oxford. change (check_file file) with (Some ("oxford instruments", "5.0"))%string. cbn [bind snd].
  assert (D : desired_scan_groups file (Some ["1"]%string) = Some [Group [("EBSD", Group [("Data", data); ("Header", header)])]%string]) by reflexivity.
  rewrite D. cbn [bind all]. unfold oxford_scan2dict.
  change (path (Group [("EBSD"%string, Group [("Data"%string, data); ("Header"%string, header)])]) ["EBSD"; "Header"]%string) with (Some header).
  change (path (Group [("EBSD"%string, Group [("Data"%string, data); ("Header"%string, header)])]) ["EBSD"; "Data"]%string) with (Some data). cbn [bind].
  assert (G : get_binning ver7 shapes (hdf5group2dict true [] header) "5.0" = Some None) by (unfold get_binning; destruct (ver7 "5.0"%string); reflexivity).
  unfold oxford_detector. rewrite G. destruct processed; eexists; reflexivity.
Qed.
Print Assumptions C72_oxford_maps.
Print Assumptions C72_requested_scans.
