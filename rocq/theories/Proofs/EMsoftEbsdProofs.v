(** Lemmas on the reader of EMsoft's simulated patterns. *)
From Coq Require Import Ascii String List Arith ZArith Reals Bool Lia Lra.
From Verif Require Import Model.Binary Model.Hdf5 Model.VendorH5 Spec.VendorFiles Proofs.BinaryProofs Proofs.Hdf5Proofs Props.VendorH5 Model.EMsoftEbsd.
From Verif Require Model.Detector Model.FilePaths.
From Verif Require Spec.EMsoftPatternFile.
Import ListNotations.
Local Open Scope nat_scope.
Local Open Scope list_scope.

(** ** Entries *)
Definition ebsd : list string := ["EBSDPatterns"]%string.
Lemma not_patterns name : name <> "EBSDPatterns"%string -> ~ In name ebsd /\ forall k, lstrip k = name -> ~ In k ebsd.
Proof. intros N. split; [intros [X|[]]; symmetry in X; contradiction|]. intros k L [X|[]]. subst k. cbn in L. symmetry in L. contradiction. Qed.
Lemma along_get g k h : group_at g k h -> get (hdf5group2dict true ebsd g) k = Some (Dict (hdf5group2dict true ebsd h)).
Proof. intros (c & cg & -> & -> & I & U). apply (get_child true ebsd c k k (Group cg)); [split; [exact I|exact U]|reflexivity]. Qed.
Lemma value_here names g name x : value_at g name x -> ~ In name names -> (forall k, lstrip k = name -> ~ In k names) ->
  forall r, get (hdf5group2dict r names g) name = Some (Value x).
Proof. intros H N1 N2 r. now apply value_get. Qed.
Lemma number_here g name x : EMsoftPatternFile.number_at g name x -> name <> "EBSDPatterns"%string -> number_at (hdf5group2dict true ebsd g) name = Some x.
Proof.
  intros H N. destruct (not_patterns name N) as [N1 N2]. unfold number_at. destruct H as [H|(z & H & ->)]; rewrite (value_here ebsd _ _ _ H N1 N2); reflexivity.
Qed.
Lemma size_here names g name n : value_at g name (Int (Z.of_nat n)) -> ~ In name names -> (forall k, lstrip k = name -> ~ In k names) ->
  forall r, size_in (hdf5group2dict r names g) name = Some n.
Proof. intros H N1 N2 r. unfold size_in. rewrite (value_here names _ _ _ H N1 N2). destruct (Z.leb_spec 0 (Z.of_nat n)); [now rewrite Nat2Z.id|lia]. Qed.

(** ** The crystal *)
Lemma sequence_map {A B} (f : A -> option B) (g : A -> B) l : (forall a, In a l -> f a = Some (g a)) -> sequence (map f l) = Some (map g l).
Proof.
  induction l as [|a l IH]; intros H; [reflexivity|]. cbn [map sequence]. rewrite H by now left. cbn [bind]. rewrite IH by (intros; apply H; now right). reflexivity.
Qed.
Lemma all_integers {A} (f : A -> Z) l : all integer (map (fun a => Int (f a)) l) = Some (map f l).
Proof. apply all_map. reflexivity. Qed.
Definition atom_of (s : EMsoftPatternFile.site) : atom :=
  Atom (EMsoftPatternFile.number s) (EMsoftPatternFile.fx s, EMsoftPatternFile.fy s, EMsoftPatternFile.fz s) (EMsoftPatternFile.occ s) (EMsoftPatternFile.debye_waller s / (8 * PI ^ 2) * 100)%R.
Lemma nth_app_k {A} (a b : list A) i : nth_error (a ++ b) (length a + i) = nth_error b i.
Proof. rewrite nth_error_app2 by lia. f_equal. lia. Qed.
Lemma crystal_read g c name : EMsoftPatternFile.stored_crystal g c -> crystaldata2phase (hdf5group2dict false [] g) name
  = Some (Phase name (EMsoftPatternFile.symmetry c) [EMsoftPatternFile.la c; EMsoftPatternFile.lb c; EMsoftPatternFile.lc c; EMsoftPatternFile.lalpha c; EMsoftPatternFile.lbeta c; EMsoftPatternFile.lgamma c] (map atom_of (EMsoftPatternFile.sites c))).
Proof.
  intros [X1 X2 X3 X4 X5]. unfold crystaldata2phase. rewrite (size_here [] _ _ _ X1) by auto. cbn [bind].
  set (n := length (EMsoftPatternFile.sites c)) in *. set (rows := map EMsoftPatternFile.fx (EMsoftPatternFile.sites c) ++ map EMsoftPatternFile.fy (EMsoftPatternFile.sites c) ++ map EMsoftPatternFile.fz (EMsoftPatternFile.sites c) ++ map EMsoftPatternFile.occ (EMsoftPatternFile.sites c) ++ map EMsoftPatternFile.debye_waller (EMsoftPatternFile.sites c)) in *.
  assert (A : get (hdf5group2dict false [] g) "AtomData" = Some (Array [5; n] (map Float rows))).
  { destruct X5 as (ch & -> & I & U). apply (get_child false [] ch "AtomData" "AtomData" (Dataset [5; n] (map Float rows))); [split; [exact I|exact U]|reflexivity]. }
  rewrite A. rewrite all_floats. cbn [bind].
  assert (T : match get (hdf5group2dict false [] g) "Atomtypes" with
    | Some (Value (Int z)) => if n =? 1 then Some [z] else None
    | Some (Array _ t) => if n =? 1 then None else all integer t
    | _ => None end = Some (map EMsoftPatternFile.number (EMsoftPatternFile.sites c))).
  { subst n. destruct (EMsoftPatternFile.sites c) as [|s [|s2 l]] eqn:S.
    - destruct X4 as (ch & -> & I & U). rewrite (get_child false [] ch "Atomtypes" "Atomtypes" _ (Array [0] []) (conj I U) eq_refl). reflexivity.
    - rewrite (value_here [] _ _ _ X4) by auto. reflexivity.
    - destruct X4 as (ch & -> & I & U).
      rewrite (get_child false [] ch "Atomtypes" "Atomtypes" _ (Array [length (s :: s2 :: l)] (map (fun s => Int (EMsoftPatternFile.number s)) (s :: s2 :: l))) (conj I U) eq_refl).
      change (length (s :: s2 :: l) =? 1) with false. apply all_integers. }
  rewrite T. cbn [bind].
  rewrite (sequence_map _ (fun i => nth i (map atom_of (EMsoftPatternFile.sites c)) (Atom 0 (0%R, 0%R, 0%R) 0 0))).
  2:{ intros i I. apply in_seq in I. destruct I as [_ I]. cbn [plus] in I.
      destruct (nth_error (EMsoftPatternFile.sites c) i) as [s|] eqn:Hs; [|apply nth_error_None in Hs; subst n; lia].
      assert (M : forall B (f : EMsoftPatternFile.site -> B), nth_error (map f (EMsoftPatternFile.sites c)) i = Some (f s)) by (intros; now apply map_nth_error).
      assert (L : forall f : EMsoftPatternFile.site -> R, length (map f (EMsoftPatternFile.sites c)) = n) by (intros; apply map_length).
      rewrite M. cbn [bind]. unfold entry2. destruct (Nat.ltb_spec i n); [|lia]. cbn [Nat.ltb Nat.leb andb].
      assert (P : forall f (l : list R), nth_error (map f (EMsoftPatternFile.sites c) ++ l) i = Some (f s)) by (intros; rewrite nth_error_app1 by (rewrite L; exact I); apply M).
      assert (K : forall f (l : list R) r, nth_error (map f (EMsoftPatternFile.sites c) ++ l) (S r * n + i) = nth_error l (r * n + i)).
      { intros f l r. rewrite nth_error_app2 by (rewrite L; lia). rewrite L. f_equal. lia. }
      unfold rows. rewrite Nat.mul_0_l, Nat.add_0_l, P. cbn [bind].
      rewrite !K. rewrite Nat.mul_0_l, Nat.add_0_l, !P. cbn [bind].
      replace (nth_error (map EMsoftPatternFile.debye_waller (EMsoftPatternFile.sites c)) i) with (Some (EMsoftPatternFile.debye_waller s)) by (symmetry; apply M). cbn [bind]. f_equal. exact (eq_sym (nth_error_nth _ _ _ (map_nth_error atom_of _ _ Hs))). }
  cbn [bind].
  assert (SG : int_at (hdf5group2dict false [] g) "SpaceGroupNumber" = Some (EMsoftPatternFile.symmetry c)) by (unfold int_at; rewrite (value_here [] _ _ _ X2) by auto; reflexivity).
  rewrite SG. cbn [bind]. rewrite (numbers_get _ _ _ _ _ X3) by auto. cbn [length]. rewrite all_floats. cbn [bind]. f_equal. f_equal.
  subst n. replace (length (EMsoftPatternFile.sites c)) with (length (map atom_of (EMsoftPatternFile.sites c))) by apply map_length. generalize (map atom_of (EMsoftPatternFile.sites c)). clear.
  intros l. generalize (Atom 0 (0%R, 0%R, 0%R) 0 0). intros d. apply nth_ext with (d := d) (d' := d); [now rewrite map_length, seq_length|].
  intros k K. rewrite map_length, seq_length in K. rewrite nth_indep with (d' := (fun i => nth i l d) 0) by (rewrite map_length, seq_length; exact K).
  rewrite map_nth with (f := fun i => nth i l d). now rewrite seq_nth.
Qed.

(** ** The whole file *)
Lemma triples_read l : (let? n := all number (flat_map (fun e => let '(a, b, c) := e in [Float a; Float b; Float c]) l) in Some (triples n)) = Some l.
Proof.
  replace (flat_map _ l) with (map Float (flat_map (fun e : R * R * R => let '(a, b, c) := e in [a; b; c]) l)).
  - rewrite all_floats. cbn [bind]. f_equal. induction l as [|[[a b] c] l IH]; [reflexivity|]. cbn [flat_map app triples]. now rewrite IH.
  - induction l as [|[[a b] c] l IH]; [reflexivity|]. cbn [flat_map app map]. now rewrite IH.
Qed.
Definition wanted_shape (s : EMsoftPatternFile.simulation) (size : option scan_size) : list nat :=
  match size with None => [EMsoftPatternFile.count s; EMsoftPatternFile.sy s; EMsoftPatternFile.sx s] | Some (One n) => [n; EMsoftPatternFile.sy s; EMsoftPatternFile.sx s] | Some (Tuple l) => l ++ [EMsoftPatternFile.sy s; EMsoftPatternFile.sx s] end.
Definition geometry (s : EMsoftPatternFile.simulation) : option Detector.detector :=
  Detector.new_detector (Z.of_nat (EMsoftPatternFile.sy s)) (Z.of_nat (EMsoftPatternFile.sx s)) (EMsoftPatternFile.pixel_size s) (EMsoftPatternFile.camera_binning s) (EMsoftPatternFile.camera_tilt s) 0 0 70
    (Detector.PCArray [1] [Detector.PC (EMsoftPatternFile.pc_x s) (EMsoftPatternFile.pc_y s) (EMsoftPatternFile.pc_L s)]) "emsoft".
Definition map_of (s : EMsoftPatternFile.simulation) : cmap :=
  CrystalMap (EMsoftPatternFile.orientations s) [EMsoftPatternFile.count s]
    (Phase (fst (FilePaths.splitext (split_last "/" (EMsoftPatternFile.crystal_file s)))) (EMsoftPatternFile.symmetry (EMsoftPatternFile.material s))
       [EMsoftPatternFile.la (EMsoftPatternFile.material s); EMsoftPatternFile.lb (EMsoftPatternFile.material s); EMsoftPatternFile.lc (EMsoftPatternFile.material s); EMsoftPatternFile.lalpha (EMsoftPatternFile.material s); EMsoftPatternFile.lbeta (EMsoftPatternFile.material s); EMsoftPatternFile.lgamma (EMsoftPatternFile.material s)]
       (map atom_of (EMsoftPatternFile.sites (EMsoftPatternFile.material s)))).
Lemma values_length s : length (EMsoftPatternFile.all_values s) = EMsoftPatternFile.count s * (EMsoftPatternFile.sy s * EMsoftPatternFile.sx s).
Proof.
  unfold EMsoftPatternFile.all_values. apply flat_map_const_length. intros k. apply flat_map_const_length. intros r. now rewrite map_length, seq_length.
Qed.
Lemma values_nth s k r c : k < EMsoftPatternFile.count s -> r < EMsoftPatternFile.sy s -> c < EMsoftPatternFile.sx s ->
  nth_error (EMsoftPatternFile.all_values s) (k * (EMsoftPatternFile.sy s * EMsoftPatternFile.sx s) + (r * EMsoftPatternFile.sx s + c)) = Some (EMsoftPatternFile.patterns s k r c).
Proof.
  intros K R C. unfold EMsoftPatternFile.all_values.
  rewrite (flat_map_const_nth _ (EMsoftPatternFile.sy s * EMsoftPatternFile.sx s)); [|intros; apply flat_map_const_length; intros; now rewrite map_length, seq_length|exact K|nia].
  rewrite (flat_map_const_nth _ (EMsoftPatternFile.sx s)); [|intros; now rewrite map_length, seq_length|exact R|exact C].
  rewrite nth_error_map. rewrite nth_error_nth' with (d := 0) by (rewrite seq_length; exact C). rewrite seq_nth by exact C. reflexivity.
Qed.
Lemma reader_fields base file program s size : EMsoftPatternFile.emsoft_file file program s ->
  file_reader base file size =
    if (program =? "EMEBSD.f90")%string then
      if EMsoftPatternFile.count s * (EMsoftPatternFile.sy s * EMsoftPatternFile.sx s) =? size_of (wanted_shape s size) then
        let? axes := get_axes (wanted_shape s size) (EMsoftPatternFile.pixel_size s) in
        let? det := geometry s in
        Some (Scan (split_first "." base) (Arr (wanted_shape s size) (EMsoftPatternFile.all_values s)) axes (map_of s) det)
      else None
    else None.
Proof.
  intros [P (g & G & Vy & Vx & Vd & Vb & Vt & V1 & V2 & V3) Pat Ori Xt (gc & Gc & Cr)]. unfold file_reader, check_file_format. rewrite P. cbn [first_text].
  destruct (program =? "EMEBSD.f90")%string; cbn [negb]; [|reflexivity].
  destruct G as (m & G1 & (m' & G2 & G3)). cbn in G3. subst m'. change (hdf5group2dict true ["EBSDPatterns"%string] file) with (hdf5group2dict true ebsd file).
  rewrite (along_get _ _ _ G1). cbn [bind]. rewrite (along_get _ _ _ G2). cbn [bind]. rewrite Pat. cbn [bind].
  assert (N : forall name, name <> "EBSDPatterns"%string -> ~ In name ebsd /\ forall k, lstrip k = name -> ~ In k ebsd) by exact not_patterns.
  destruct (N "numsy"%string) as [Ny1 Ny2]; [discriminate|]. destruct (N "numsx"%string) as [Nx1 Nx2]; [discriminate|].
  rewrite (size_here ebsd _ _ _ Vy Ny1 Ny2). cbn [bind].
  rewrite (size_here ebsd _ _ _ Vx Nx1 Nx2). cbn [bind].
  assert (D : match size with
    | None => Some (Arr [EMsoftPatternFile.count s; EMsoftPatternFile.sy s; EMsoftPatternFile.sx s] (EMsoftPatternFile.all_values s))
    | Some (One n) => reshape (Arr [EMsoftPatternFile.count s; EMsoftPatternFile.sy s; EMsoftPatternFile.sx s] (EMsoftPatternFile.all_values s)) [n; EMsoftPatternFile.sy s; EMsoftPatternFile.sx s]
    | Some (Tuple l) => reshape (Arr [EMsoftPatternFile.count s; EMsoftPatternFile.sy s; EMsoftPatternFile.sx s] (EMsoftPatternFile.all_values s)) (l ++ [EMsoftPatternFile.sy s; EMsoftPatternFile.sx s])
    end = if EMsoftPatternFile.count s * (EMsoftPatternFile.sy s * EMsoftPatternFile.sx s) =? size_of (wanted_shape s size) then Some (Arr (wanted_shape s size) (EMsoftPatternFile.all_values s)) else None).
  { destruct size as [[n|l]|]; unfold reshape; cbn [content wanted_shape]; rewrite ?values_length; try reflexivity.
    cbn [size_of fold_right]. rewrite Nat.mul_1_r, Nat.eqb_refl. reflexivity. }
  rewrite D. clear D. destruct (_ =? size_of _); cbn [bind]; [|reflexivity].
  rewrite (number_here _ _ _ Vd) by discriminate. cbn [bind dims]. destruct (get_axes _ _) as [ax|]; cbn [bind]; [|reflexivity].
  rewrite Gc. cbn [bind]. rewrite Xt. cbn [first_text bind]. rewrite (crystal_read _ _ _ Cr). cbn [bind].
  rewrite Ori. cbn [bind]. rewrite triples_read. cbn [bind].
  rewrite (number_here _ _ _ Vb), (number_here _ _ _ Vt), (number_here _ _ _ V1), (number_here _ _ _ V2), (number_here _ _ _ V3) by discriminate. cbn [bind].
  unfold geometry. destruct (Detector.new_detector _ _ _ _ _ _ _ _ _ _); reflexivity.
Qed.
