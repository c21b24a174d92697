(** Simulated patterns loaded from EMsoft files (property C87). *)
From Coq Require Import Ascii String List Arith ZArith Reals Bool Lia Lra.
From Verif Require Import Model.Binary Model.Hdf5 Model.VendorH5 Spec.VendorFiles Spec.DetectorGeometry Proofs.BinaryProofs Model.EMsoftEbsd Proofs.EMsoftEbsdProofs.
From Verif Require Import Spec.EMsoftPatternFile.
From Verif Require Model.Detector Model.FilePaths Model.Nordif.
Import ListNotations.
Local Open Scope nat_scope.
Local Open Scope list_scope.

Definition program_name : string := "EMEBSD.f90".
(** The numbers of rows and columns of the map are those of the data, and the axes are called and scaled so. *)
Definition axes_describe (s : simulation) (nav : list string) (x : scan) : Prop :=
  map (fun a => ax_size a) (axes x) = dims (data x) /\ map (fun a => ax_index a) (axes x) = seq 0 (length (dims (data x))) /\
  map (fun a => ax_name a) (axes x) = nav ++ ["dy"; "dx"]%string /\
  map (fun a => ax_scale a) (axes x) = map (fun _ => 1%R) nav ++ [pixel_size s; pixel_size s].

Lemma geometry_some s : exists d, geometry s = Some d.
Proof. eexists. reflexivity. Qed.

(** Without a scan size, and with the number of patterns: the patterns follow each other. *)
Theorem C87_patterns_in_a_row base file s size : emsoft_file file program_name s -> size = None \/ size = Some (One (count s)) \/ size = Some (Tuple [count s]) ->
  exists x, file_reader base file size = Some x /\ dims (data x) = [count s; sy s; sx s] /\ axes_describe s ["x"%string] x /\
    forall k r c, k < count s -> r < sy s -> c < sx s -> value_of (data x) [k; r; c] = Some (patterns s k r c).
Proof.
  intros F Sz. rewrite (reader_fields base file _ s size F). unfold program_name. rewrite String.eqb_refl.
  assert (W : wanted_shape s size = [count s; sy s; sx s]) by (destruct Sz as [->|[->| ->]]; reflexivity). rewrite W.
  cbn [size_of fold_right]. rewrite Nat.mul_1_r, Nat.eqb_refl. unfold get_axes. cbn [length Nat.eqb Nat.leb bind].
  destruct (geometry_some s) as [d D]. rewrite D. cbn [bind]. eexists. split; [reflexivity|]. split; [reflexivity|]. split; [repeat split|].
  intros k r c K R C. unfold value_of. cbn [data dims content ravel size_of fold_right]. rewrite Nat.mul_1_r, Nat.add_0_r, Nat.mul_1_r. now apply values_nth.
Qed.

(** With numbers of rows and columns: row by row. *)
Theorem C87_patterns_in_rows_and_columns base file s ny nx : emsoft_file file program_name s -> ny * nx = count s ->
  exists x, file_reader base file (Some (Tuple [ny; nx])) = Some x /\ dims (data x) = [ny; nx; sy s; sx s] /\ axes_describe s ["y"; "x"]%string x /\
    forall i j r c, i < ny -> j < nx -> r < sy s -> c < sx s -> value_of (data x) [i; j; r; c] = Some (patterns s (i * nx + j) r c).
Proof.
  intros F N. rewrite (reader_fields base file _ s _ F). unfold program_name. rewrite String.eqb_refl. cbn [wanted_shape app].
  replace (count s * (sy s * sx s) =? size_of [ny; nx; sy s; sx s]) with true by (symmetry; apply Nat.eqb_eq; cbn [size_of fold_right]; nia).
  unfold get_axes. cbn [length Nat.eqb Nat.leb bind].
  destruct (geometry_some s) as [d D]. rewrite D. cbn [bind]. eexists. split; [reflexivity|]. split; [reflexivity|]. split; [repeat split|].
  intros i j r c I J R C. unfold value_of. cbn [data dims content]. replace (ravel [ny; nx; sy s; sx s] [i; j; r; c]) with ((i * nx + j) * (sy s * sx s) + (r * sx s + c)) by (cbn [ravel size_of fold_right]; nia).
  apply values_nth; [nia|assumption|assumption].
Qed.

(** Which files and sizes are accepted: those of the program, and sizes with one or two numbers whose product is the number of patterns.
    (A single pattern may also be loaded with an empty tuple.) *)
Theorem C87_accepted base file program s size : emsoft_file file program s -> 1 <= sy s -> 1 <= sx s ->
  ((exists x, file_reader base file size = Some x) <->
   program = program_name /\ match size with None => True | Some (One n) => n = count s | Some (Tuple l) => fold_right Nat.mul 1 l = count s /\ length l <= 2 end).
Proof.
  intros F Hy Hx. rewrite (reader_fields base file _ s _ F). unfold program_name.
  destruct (String.eqb_spec program "EMEBSD.f90") as [->|N]; [|split; [intros [x X]; discriminate|intros [X _]; contradiction]].
  destruct (geometry_some s) as [d D].
  assert (SZ : forall l, size_of (l ++ [sy s; sx s]) = fold_right Nat.mul 1 l * (sy s * sx s)).
  { induction l as [|n l IH]; unfold size_of in *; cbn [app fold_right] in *; [lia|]. rewrite IH. lia. }
  assert (W : exists l, wanted_shape s size = l ++ [sy s; sx s] /\ (fold_right Nat.mul 1 l = count s /\ length l <= 2 <->
     match size with None => True | Some (One n) => n = count s | Some (Tuple l) => fold_right Nat.mul 1 l = count s /\ length l <= 2 end)).
  { destruct size as [[n|l]|]; cbn [wanted_shape].
    - exists [n]. split; [reflexivity|]. cbn [fold_right length]. rewrite Nat.mul_1_r. split; [intros H; apply H|intros H; split; [exact H|lia]].
    - exists l. split; reflexivity.
    - exists [count s]. split; [reflexivity|]. cbn [fold_right length]. rewrite Nat.mul_1_r. split; [trivial|split; [reflexivity|lia]]. }
  destruct W as (l & W & M). rewrite W. rewrite SZ. destruct (Nat.eqb_spec (count s * (sy s * sx s)) (fold_right Nat.mul 1 l * (sy s * sx s))) as [E|E].
  - assert (E' : fold_right Nat.mul 1 l = count s) by (apply Nat.mul_cancel_r with (p := sy s * sx s); [nia|symmetry; exact E]). unfold get_axes. rewrite app_length. cbn [length].
    destruct (Nat.eqb_spec (length l + 2) 4) as [L|L].
    + cbn [length]. destruct (Nat.leb_spec (length l + 2) 4); [|lia]. cbn [bind]. rewrite D. cbn [bind]. split; [intros _; split; [reflexivity|]; apply M; split; [exact E'|lia]|intros _; eauto].
    + cbn [length]. destruct (Nat.leb_spec (length l + 2) 3); cbn [bind].
      * rewrite D. cbn [bind]. split; [intros _; split; [reflexivity|]; apply M; split; [exact E'|lia]|intros _; eauto].
      * split; [intros [x X]; discriminate|]. intros [_ X]. apply M in X. lia.
  - split; [intros [x X]; discriminate|]. intros [_ X]. apply M in X. exfalso. apply E. f_equal. symmetry. apply X.
Qed.

(** Whatever else is in it, a file is only loaded if it tells that the program wrote it. *)
Theorem C87_other_files_refused base file size x : file_reader base file size = Some x ->
  exists shape rest, path file ["EMheader"; "EBSD"; "ProgramName"]%string = Some (Dataset shape (Text program_name :: rest)).
Proof.
  unfold file_reader, check_file_format, first_text. destruct (path file _) as [[[|n shape] [|[| |t] rest]|]|]; cbn [negb]; try discriminate.
  destruct (String.eqb_spec t "EMEBSD.f90") as [->|N]; [|discriminate]. eauto.
Qed.

(** The detector: as many rows and columns as the patterns, tilt, binning and pixel size of the simulation, and the projection centre where it was
    simulated. *)
Theorem C87_detector base file s size x : emsoft_file file program_name s -> file_reader base file size = Some x ->
  let d := detector x in
  Detector.d_ny d = Z.of_nat (sy s) /\ Detector.d_nx d = Z.of_nat (sx s) /\ Detector.d_px_size d = pixel_size s /\ Detector.d_binning d = camera_binning s /\
  Detector.d_tilt d = camera_tilt s /\ Detector.d_sample_tilt d = 70%R /\
  (exists nav, dims (data x) = nav ++ [sy s; sx s]) /\
  exists q, Detector.d_pc d = Detector.PCArray [1] [q] /\
  (1 <= sy s -> 1 <= sx s -> (0 < pixel_size s)%R -> (0 < camera_binning s)%R ->
   bruker_position (INR (sy s)) (INR (sx s)) (camera_binning s) (pixel_size s) (Detector.pcx q) (Detector.pcy q) (Detector.pcz q)
   = emsoft_position (INR (sy s)) (INR (sx s)) (camera_binning s) (pixel_size s) (pc_x s) (pc_y s) (pc_L s)).
Proof.
  intros F X. rewrite (reader_fields base file _ s _ F) in X. unfold program_name in X. rewrite String.eqb_refl in X.
  destruct (_ =? _); [|discriminate]. destruct (get_axes _ _); cbn [bind] in X; [|discriminate].
  unfold geometry, Detector.new_detector in X.
  destruct (Detector.get_pc_convention "emsoft") as [c|] eqn:C; [|discriminate]. cbn [bind] in X. vm_compute in C. injection C as <-. injection X as <-. cbn [detector data dims].
  unfold Detector.with_pc. cbn [Detector.d_ny Detector.d_nx Detector.d_px_size Detector.d_binning Detector.d_tilt Detector.d_sample_tilt Detector.d_pc Detector.map_pc Detector.pcs Detector.nav_shape map].
  do 6 (split; [reflexivity|]). split.
  { destruct size as [[n|nav]|]; cbn [wanted_shape]; [now exists [n]|now exists nav|now exists [count s]]. }
  eexists. split; [reflexivity|]. intros Hy Hx Hp Hb. change (Detector.emsoft_version "emsoft") with 5. unfold Detector.pc_emsoft2bruker, Detector.nrows, Detector.ncols.
  cbn [Nat.ltb Nat.leb Detector.pcx Detector.pcy Detector.pcz Detector.d_ny Detector.d_nx Detector.d_binning Detector.d_px_size]. rewrite <- !INR_IZR_INZ.
  assert (0 < INR (sy s))%R by (apply lt_0_INR; lia). assert (0 < INR (sx s))%R by (apply lt_0_INR; lia).
  unfold bruker_position, emsoft_position. f_equal; field; repeat split; lra.
Qed.

(** The map: the orientation of every pattern, in the order of the patterns; all points have the phase simulated. *)
Theorem C87_orientations base file s size x : emsoft_file file program_name s -> file_reader base file size = Some x ->
  euler (xmap x) = orientations s /\ map_shape (xmap x) = [count s] /\ space_group (map_phase (xmap x)) = symmetry (material s).
Proof.
  intros F X. rewrite (reader_fields base file _ s _ F) in X. unfold program_name in X. rewrite String.eqb_refl in X.
  destruct (_ =? _); [|discriminate]. destruct (get_axes _ _); cbn [bind] in X; [|discriminate]. destruct (geometry s); cbn [bind] in X; [|discriminate].
  injection X as <-. repeat split.
Qed.
(** For patterns in a row the map has the shape of the signal's navigation axes. *)
Theorem C87_map_fits_a_row base file s size : emsoft_file file program_name s -> size = None \/ size = Some (One (count s)) \/ size = Some (Tuple [count s]) ->
  exists x, file_reader base file size = Some x /\ dims (data x) = map_shape (xmap x) ++ [sy s; sx s].
Proof.
  intros F Sz. destruct (C87_patterns_in_a_row base file s size F Sz) as (x & X & D & _). exists x. split; [exact X|].
  destruct (C87_orientations base file s size x F X) as (_ & M & _). now rewrite M, D.
Qed.
(** For patterns in rows and columns it never has: it remains one line. *)
Theorem C87_map_fits_rows_and_columns_refuted base file s ny nx : emsoft_file file program_name s -> ny * nx = count s ->
  exists x, file_reader base file (Some (Tuple [ny; nx])) = Some x /\ map_shape (xmap x) = [ny * nx] /\ dims (data x) <> map_shape (xmap x) ++ [sy s; sx s].
Proof.
  intros F N. destruct (C87_patterns_in_rows_and_columns base file s ny nx F N) as (x & X & D & _). exists x. split; [exact X|].
  destruct (C87_orientations base file s _ x F X) as (_ & M & _). rewrite M, D, N. split; [reflexivity|discriminate].
Qed.

(** The scan size is documented as width and height, but the first number is the number of rows (the height): a file with scan size (w, h) is loaded
    with w rows and h columns, unlike with the reader of NORDIF's files. *)
Theorem C87_width_and_height_refuted base file s w h : emsoft_file file program_name s -> w * h = count s -> w <> h ->
  exists x, file_reader base file (Some (Tuple [w; h])) = Some x /\ dims (data x) = [w; h; sy s; sx s] /\ dims (data x) <> [h; w; sy s; sx s] /\
    (forall f y, 2 <= w -> 2 <= h -> 2 <= sy s -> 2 <= sx s -> length f = h * w * sy s * sx s ->
       Nordif.file_reader 1%R f (Some (Nordif.Pair w h)) (Some (sx s, sy s)) None false = Some y -> shape (Nordif.data y) = [h; w; sy s; sx s]).
Proof.
  intros F N Ne. destruct (C87_patterns_in_rows_and_columns base file s w h F N) as (x & X & D & _). exists x. split; [exact X|]. split; [exact D|]. split; [rewrite D; congruence|].
  intros f y Hw Hh Hy Hx L. unfold Nordif.file_reader, Nordif.chosen_scan_size. rewrite items_length, L, Nat.min_id, Nat.eqb_refl. intros Y. injection Y as <-. cbn [Nordif.data].
  unfold squeeze, squeeze_shape. cbn [shape filter]. assert (E : forall n, 2 <= n -> (n =? 1) = false) by (intros n ?; apply Nat.eqb_neq; lia). now rewrite !E by assumption.
Qed.
(** One pattern, loaded with an empty tuple: its rows are called x and its columns dy. *)
Theorem C87_single_pattern_axes_refuted base file s : emsoft_file file program_name s -> count s = 1 ->
  exists x, file_reader base file (Some (Tuple [])) = Some x /\ dims (data x) = [sy s; sx s] /\
    map (fun a => ax_name a) (axes x) = ["x"; "dy"]%string /\ map (fun a => ax_scale a) (axes x) = [1%R; pixel_size s].
Proof.
  intros F N. rewrite (reader_fields base file _ s _ F). unfold program_name. rewrite String.eqb_refl. cbn [wanted_shape app]. rewrite N.
  cbn [size_of fold_right]. rewrite Nat.mul_1_l, Nat.mul_1_r, Nat.eqb_refl. unfold get_axes. cbn [length Nat.eqb Nat.leb bind].
  destruct (geometry_some s) as [d D]. rewrite D. cbn [bind]. eexists. repeat split.
Qed.

(** The phase: one atom for every site, at the same position, with the same occupancy and the mean square displacement B / (8 pi^2) in square
    angstroms. *)
Theorem C87_atoms base file s size x : emsoft_file file program_name s -> file_reader base file size = Some x ->
  Forall2 (fun a t => atype a = number t /\ xyz a = (fx t, fy t, fz t) /\ occupancy a = occ t /\
             (uiso a * (8 * (PI * PI)) = 100 * debye_waller t)%R) (* 1 nm^2 = 100 square angstroms *)
    (atoms (map_phase (xmap x))) (sites (material s)).
Proof.
  intros F X. rewrite (reader_fields base file _ s _ F) in X. unfold program_name in X. rewrite String.eqb_refl in X.
  destruct (_ =? _); [|discriminate]. destruct (get_axes _ _); cbn [bind] in X; [|discriminate]. destruct (geometry s); cbn [bind] in X; [|discriminate].
  injection X as <-. cbn [xmap map_of map_phase atoms]. induction (sites (material s)) as [|t ts IH]; [constructor|]. cbn [map]. constructor; [|exact IH].
  unfold atom_of. cbn [atype xyz occupancy uiso]. repeat split. field. apply PI_neq0.
Qed.
(** The lattice parameters are those of the file, in nanometres: unlike displacements they are not converted, so they are not in angstroms. *)
Theorem C87_lattice_in_angstroms_refuted base file s size x : emsoft_file file program_name s -> file_reader base file size = Some x ->
  let c := material s in
  cell (map_phase (xmap x)) = [la c; lb c; lc c; lalpha c; lbeta c; lgamma c] /\
  ((0 < la c)%R -> cell (map_phase (xmap x)) <> [10 * la c; 10 * lb c; 10 * lc c; lalpha c; lbeta c; lgamma c]%R).
Proof.
  intros F X c. rewrite (reader_fields base file _ s _ F) in X. unfold program_name in X. rewrite String.eqb_refl in X.
  destruct (_ =? _); [|discriminate]. destruct (get_axes _ _); cbn [bind] in X; [|discriminate]. destruct (geometry s); cbn [bind] in X; [|discriminate].
  injection X as <-. cbn [xmap map_of map_phase cell]. fold c. split; [reflexivity|]. intros P E. injection E as E _ _. lra.
Qed.

(** Names: the title is the file's name up to the first dot; the phase is called as the file with the crystal, without directories and extension. *)
Fixpoint without (c : ascii) (t : string) : Prop := match t with EmptyString => True | String x r => x <> c /\ without c r end.
Lemma split_first_app c t r : without c t -> split_first c (t ++ String c r) = t.
Proof.
  induction t as [|x t IH]; cbn [without append split_first]; intros H; [now rewrite Ascii.eqb_refl|]. destruct (Ascii.eqb_spec x c); [destruct H; contradiction|]. now rewrite IH.
Qed.
Lemma append_assoc' a b c : ((a ++ b) ++ c = a ++ (b ++ c))%string.
Proof. induction a as [|x a IH]; cbn; [reflexivity|now rewrite IH]. Qed.
Lemma append_nil' a : (a ++ "" = a)%string.
Proof. induction a as [|x a IH]; cbn; [reflexivity|now rewrite IH]. Qed.
Lemma split_last_without c t : without c t -> forall acc, split_last_from c acc t = (acc ++ t)%string.
Proof.
  induction t as [|x t IH]; cbn [without split_last_from]; intros H acc; [now rewrite append_nil'|]. destruct (Ascii.eqb_spec x c); [destruct H; contradiction|].
  rewrite IH by apply H. now rewrite append_assoc'.
Qed.
Lemma split_last_app c d t : without c t -> split_last c (d ++ String c t) = t.
Proof.
  intros H. unfold split_last. generalize EmptyString at 1. induction d as [|x d IH]; intros acc; cbn [append split_last_from].
  - rewrite Ascii.eqb_refl. now rewrite split_last_without.
  - destruct (Ascii.eqb x c); apply IH.
Qed.
Lemma last_dot_extension e : without "." e -> FilePaths.last_dot e = None.
Proof. induction e as [|x e IH]; cbn [without FilePaths.last_dot]; intros H; [reflexivity|]. rewrite IH by apply H. destruct (Ascii.eqb_spec x "."); [destruct H; contradiction|reflexivity]. Qed.
Lemma last_dot_app n e : without "." e -> FilePaths.last_dot (n ++ String "." e) = Some (n, e).
Proof.
  intros H. induction n as [|x n IH]; cbn [append FilePaths.last_dot]; [now rewrite last_dot_extension by exact H|]. now rewrite IH.
Qed.
Theorem C87_names base file s size x n e : emsoft_file file program_name s -> file_reader base file size = Some x ->
  (forall t r, base = (t ++ String "." r)%string -> without "." t -> title x = t) /\
  ((crystal_file s = (n ++ "." ++ e)%string \/ exists d, crystal_file s = (d ++ "/" ++ n ++ "." ++ e)%string) ->
   without "/" n -> without "/" e -> without "." e -> without "." n -> n <> EmptyString -> phase_name (map_phase (xmap x)) = n).
Proof.
  intros F X. rewrite (reader_fields base file _ s _ F) in X. unfold program_name in X. rewrite String.eqb_refl in X.
  destruct (_ =? _); [|discriminate]. destruct (get_axes _ _); cbn [bind] in X; [|discriminate]. destruct (geometry s); cbn [bind] in X; [|discriminate].
  injection X as <-. cbn [title xmap map_of map_phase phase_name]. split.
  - intros t r -> H. now apply split_first_app.
  - intros C N E Ed Nd Ne.
    assert (W : without "/" (n ++ "." ++ e)).
    { clear -N E. induction n as [|y n IH]; cbn [append without] in *; [split; [discriminate|exact E]|]. split; [apply N|apply IH, N]. }
    assert (L : split_last "/" (crystal_file s) = (n ++ "." ++ e)%string).
    { destruct C as [-> | [dir ->]]; [apply (split_last_without "/" _ W EmptyString)|]. apply (split_last_app "/" dir (n ++ "." ++ e) W). }
    rewrite L. unfold FilePaths.splitext. change (n ++ "." ++ e)%string with (n ++ String "." e)%string. rewrite last_dot_app by exact Ed.
    destruct n as [|y n']; [contradiction|]. cbn [FilePaths.only_dots]. destruct Nd as [Nd _]. destruct (Ascii.eqb_spec y "."); [contradiction|]. reflexivity.
Qed.

(** ** A file *)
Section Case.
Local Open Scope string_scope.
Let nickel := Crystal 225 (352 / 1000) (352 / 1000) (352 / 1000) 90 90 90 [Site 28 0 0 0 1 (35 / 10000)].
Definition example : simulation :=
  Simulation 2 3 (fun k r c => Int (Z.of_nat (100 * k + 10 * r + c))) [(1, 2, 3); (4, 5, 6); (0, 0, 0); (0, 1, 0); (1, 0, 0); (1, 1, 1)]%R 70 1 10 4 (-3) 15000 nickel "dir/ni.xtal".
Definition example_file : node := Group
  [("EMheader", Group [("EBSD", Group [("ProgramName", Dataset [1] [Text "EMEBSD.f90"])])]);
   ("NMLparameters", Group [("EBSDNameList", Group [("numsy", Dataset [1] [Int 2]); ("numsx", Dataset [1] [Int 3]); ("delta", Dataset [1] [Float 70]);
      ("binning", Dataset [1] [Int 1]); ("thetac", Dataset [1] [Float 10]); ("xpc", Dataset [1] [Float 4]); ("ypc", Dataset [1] [Float (-3)]); ("L", Dataset [1] [Float 15000])])]);
   ("EMData", Group [("EBSD", Group [("EBSDPatterns", Dataset [6; 2; 3] (all_values example));
      ("EulerAngles", Dataset [6; 3] (flat_map (fun e => let '(a, b, c) := e in [Float a; Float b; Float c]) (orientations example)));
      ("xtalname", Dataset [1] [Text "dir/ni.xtal"])])]);
   ("CrystalData", Group [("Natomtypes", Dataset [1] [Int 1]); ("SpaceGroupNumber", Dataset [1] [Int 225]);
      ("LatticeParameters", Dataset [6] (map Float [352 / 1000; 352 / 1000; 352 / 1000; 90; 90; 90]%R)); ("Atomtypes", Dataset [1] [Int 28]);
      ("AtomData", Dataset [5; 1] (map Float [0; 0; 0; 1; 35 / 10000]%R))])].
Lemma example_is_a_file : emsoft_file example_file program_name example.
Proof.
  assert (V : forall c k x, In (k, Dataset [1] [x]) c -> lstrip k = k -> (forall k' m', In (k', m') c -> k' = k \/ lstrip k' = k -> (k', m') = (k, Dataset [1] [x])) -> value_at (Group c) k x).
  { intros c k x I L U. exists c, k, (Dataset [1] [x]). repeat split; auto. }
  assert (T : forall c k x, forallb (fun p => (negb (fst p =? k) && negb (lstrip (fst p) =? k))) (filter (fun p => negb (fst p =? k)) c) = true ->
     filter (fun p => fst p =? k) c = [(k, Dataset [1] [x])] -> lstrip k = k -> value_at (Group c) k x).
  { intros c k x A B L. apply V; [|exact L|].
    - assert (I : In (k, Dataset [1] [x]) (filter (fun p => fst p =? k) c)) by (rewrite B; now left). apply filter_In in I. apply I.
    - intros k' m' I [->|K].
      + assert (J : In (k, m') (filter (fun p => fst p =? k) c)) by (apply filter_In; split; [exact I|apply String.eqb_refl]). rewrite B in J. destruct J as [J|[]]. congruence.
      + destruct (String.eqb_spec k' k) as [->|N].
        * assert (J : In (k, m') (filter (fun p => fst p =? k) c)) by (apply filter_In; split; [exact I|apply String.eqb_refl]). rewrite B in J. destruct J as [J|[]]. congruence.
        * assert (J : In (k', m') (filter (fun p => negb (fst p =? k)) c)) by (apply filter_In; split; [exact I|]; cbn [fst]; apply negb_true_iff, String.eqb_neq, N).
          rewrite forallb_forall in A. specialize (A _ J). cbn [fst] in A. rewrite K, String.eqb_refl, andb_false_r in A. discriminate. }
  assert (G : forall c k cg, In (k, Group cg) c -> (forall k' m', In (k', m') c -> k' = k \/ lstrip k' = k -> (k', m') = (k, Group cg)) -> group_at (Group c) k (Group cg)).
  { intros c k cg I U. exists c, cg. auto. }
  split.
  - reflexivity.
  - eexists. split.
    + eexists. split; [apply G; [right; left; reflexivity|]|].
      { intros k' m' [I|[I|[I|[I|[]]]]] [K|K]; injection I as <- <-; try discriminate; reflexivity. }
      eexists. split; [apply G; [left; reflexivity|]|reflexivity]. intros k' m' [I|[]] _. now injection I as <- <-.
    + do 3 (split; [try left; apply T; reflexivity|]). split; [right; exists 1%Z; split; [apply T; reflexivity|reflexivity]|].
      do 3 (split; [left; apply T; reflexivity|]). left; apply T; reflexivity.
  - reflexivity.
  - reflexivity.
  - reflexivity.
  - eexists. split; [reflexivity|]. split.
    + apply T; reflexivity.
    + apply T; reflexivity.
    + eexists. split; [reflexivity|]. split; [right; right; left; reflexivity|]. split; [cbn; lia|].
      intros k' m' [I|[I|[I|[I|[I|[]]]]]] [K|K]; injection I as <- <-; try discriminate; reflexivity.
    + apply T; reflexivity.
    + eexists. split; [reflexivity|]. split; [do 4 right; left; reflexivity|].
      intros k' m' [I|[I|[I|[I|[I|[]]]]]] [K|K]; injection I as <- <-; try discriminate; reflexivity.
Qed.
Example C87_case : exists x, file_reader "scan.h5" example_file (Some (Tuple [2; 3])) = Some x /\ dims (data x) = [2; 3; 2; 3] /\
  value_of (data x) [1; 2; 1; 0] = Some (Int 510) /\ title x = "scan" /\ phase_name (map_phase (xmap x)) = "ni".
Proof.
  destruct (C87_patterns_in_rows_and_columns "scan.h5" example_file example 2 3 example_is_a_file eq_refl) as (x & X & D & _ & P).
  exists x. split; [exact X|]. split; [exact D|]. split; [apply P; cbn; lia|].
  destruct (C87_names "scan.h5" example_file example _ x "ni" "xtal" example_is_a_file X) as [T N]. split; [apply (T "scan" "h5"); [reflexivity|cbn; repeat split; discriminate]|].
  apply N; [right; exists "dir"; reflexivity|..]; cbn; repeat split; discriminate.
Qed.
End Case.

Print Assumptions C87_patterns_in_a_row.
Print Assumptions C87_detector.
Print Assumptions C87_accepted.
