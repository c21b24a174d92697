(** Loading master patterns from EMsoft files (properties C34, C35, C55). *)
From Coq Require Import String List Arith ZArith QArith Qabs Bool Lia Lqa.
From Verif Require Import Model.EMsoftMaster Spec.MasterPatternFile Proofs.EMsoftMasterProofs.
Import ListNotations.
Local Open Scope nat_scope.

(** ** Specification *)

Definition side (f : file) : nat := npx f * 2 + 1.
(** Contents of a well formed file: patterns of side 2 npx + 1, one per energy (and, in the Lambert
    projection of EBSD and TKD files, per site), and a known program name. *)
Definition programs (t : diffraction) : list string :=
  match t with
  | EBSD => ["EMEBSDmaster.f90"; "EMEBSDmasterOpenCL.f90"]
  | TKD => ["EMTKDmaster.f90"; "EMTKDmasterOpenCL.f90"]
  | ECP => ["EMECPmaster.f90"; "EMECPmasterOpenCL.f90"]
  end%string.
Definition well_formed (t : diffraction) (f : file) : Prop :=
  In (program f) (programs t) /\ 1 <= npx f /\ increasing (energies f) /\
  let sp := [length (energies f); side f; side f] in
  shape (masterSPNH f) = sp /\ shape (masterSPSH f) = sp /\
  let lp := match t with ECP => sp | _ => numset f :: sp end in
  shape (mLPNH f) = lp /\ shape (mLPSH f) = lp.

(** Hemispheres in the order they are returned; the northern (upper) first. *)
Inductive stored := North | South.
Definition hemispheres (h : hemisphere) : list stored :=
  match h with Upper => [North] | Lower => [South] | Both => [North; South] end.

(** Intensity in the file of the pixel in row r (from the top of the pattern as shown) and column c of
    the pattern with energy number e. EMsoft stores stereographic patterns upside down, and Lambert
    patterns of EBSD and TKD per site. *)
Definition in_file (t : diffraction) (f : file) (p : projection) (s : stored) (e r c : nat) : Q :=
  match p, s with
  | Stereographic, North => at_ (masterSPNH f) [e; side f - 1 - r; c]
  | Stereographic, South => at_ (masterSPSH f) [e; side f - 1 - r; c]
  | Lambert, _ =>
      let ds := match s with North => mLPNH f | South => mLPSH f end in
      match t with
      | ECP => at_ ds [e; r; c]
      | _ => fold_right Qplus 0%Q (map (fun site => at_ ds [site; e; r; c]) (seq 0 (numset f)))
      end
  end.

(** Position in the loaded array of hemisphere number hi, pattern number k of count, row r, column c. *)
Definition position (h : hemisphere) (hi count k r c : nat) : list nat :=
  match h with Both => [hi] | _ => [] end ++ (if count =? 1 then [] else [k]) ++ [r; c].

(** Axes the signal should have: hemisphere (if both), energy (if more than one), height, width, given by
    name, length, scale and units. *)
Definition expected_axes (f : file) (h : hemisphere) (count : nat) : list (string * nat * Q * string) :=
  match h with Both => [("hemisphere"%string, 2, 1%Q, ""%string)] | _ => [] end
  ++ (if count =? 1 then [] else [("energy"%string, count, ebinsize f, "keV"%string)])
  ++ [("height"%string, side f, 1%Q, "px"%string); ("width"%string, side f, 1%Q, "px"%string)].
Definition kind (a : axis) : string * nat * Q * string := (ax_name a, ax_size a, ax_scale a, ax_units a).

(** Coordinate of pixel i along an axis. *)
Definition coordinate (a : axis) (i : nat) : Q := (ax_offset a + inject_Z (Z.of_nat i) * ax_scale a)%Q.

(** ** Theorems *)

Lemma check_known t f : check_file_format t f = true <-> In (program f) (programs t).
Proof.
  unfold check_file_format. rewrite orb_true_iff, !String.eqb_eq. destruct t; cbn; intuition congruence.
Qed.

Section Load.
Variables (t : diffraction) (f : file) (a : energy_arg) (p : projection) (h : hemisphere).
Hypothesis WF : well_formed t f.

Lemma side_not_1 : (side f =? 1) = false.
Proof using WF. destruct WF as [_ [H _]]. apply Nat.eqb_neq. unfold side. lia. Qed.

(** Everything about a successful load at once; the theorems below are parts of it. *)
Lemma load_all out : read t f a p h = Some out ->
  exists first count,
    (forall i, wanted (energies f) a i <-> first <= i < first + count) /\ first < length (energies f) /\
    shape (l_data out) = match h with Both => [2] | _ => [] end ++ (if count =? 1 then [] else [count]) ++ [side f; side f] /\
    (forall hi s k r c, nth_error (hemispheres h) hi = Some s -> k < count -> r < side f -> c < side f ->
       at_ (l_data out) (position h hi count k r c) = in_file t f p s (first + k) r c) /\
    (p = Stereographic \/ t = ECP \/ h = Both \/ numset f = 1 ->
       map kind (l_axes out) = expected_axes f h count /\
       map ax_offset (l_axes out) = match h with Both => [0%Q] | _ => [] end
         ++ (if count =? 1 then [] else [nth first (energies f) 0%Q])
         ++ [inject_Z (minus_half (side f)); inject_Z (minus_half (side f))]) /\
    (p = Lambert -> t <> ECP -> h <> Both -> numset f <> 1 ->
       map ax_name (l_axes out)
       = ("hemisphere" : string)%string :: (if count =? 1 then [] else ["energy"%string]) ++ ["height"%string]) /\
    l_projection out = p /\ l_hemisphere out = h.
Proof using WF.
  pose proof side_not_1 as SN. destruct WF as [OK [NP [INC [S1 [S2 [S3 S4]]]]]]. apply check_known in OK.
  unfold read. rewrite OK. cbn [negb].
  destruct (get_data_shape_slices (npx f) (energies f) a) as [[sh sl]|] eqn:G; [|discriminate].
  destruct (selection _ _ _ _ _ INC G) as [s [first [count [-> [CH [-> [LT W]]]]]]].
  fold (side f).
  assert (IM : (match [s; All; All] with Range i _ :: _ => i | _ => 0 end) = first).
  { destruct s; cbn in CH; injection CH as <- <-; reflexivity. }
  rewrite IM. clear IM G LT.
  destruct (nth_error (energies f) first) as [e0|] eqn:N0; [|discriminate].
  assert (LT : first < length (energies f)) by (apply nth_error_Some; congruence).
  assert (NE : nth first (energies f) 0%Q = e0) by (apply (nth_error_nth _ _ _ N0)).
  assert (SS : forall tl', sliced_shape (s :: tl') (length (energies f) :: [side f; side f])
                = count :: sliced_shape tl' [side f; side f]).
  { intros tl'. destruct s; cbn in CH |- *; injection CH as _ <-; reflexivity. }
  assert (SI : forall tl' k ix, sliced_index (s :: tl') (k :: ix) = (first + k) :: sliced_index tl' ix).
  { intros tl' k ix. destruct s; cbn in CH |- *; injection CH as <- _; reflexivity. }
  assert (FS : first = match s with All => 0 | Range lo _ => lo end).
  { destruct s; cbn in CH; injection CH as <- _; reflexivity. }
  clear CH.
  intros H. exists first, count. split; [exact W|]. split; [exact LT|]. clear W.
  remember (side f) as n eqn:ND.
  destruct p, h, t; cbn [get_datasets length Nat.eqb] in H;
    cbv beta iota zeta in H;
    unfold read_slices, stack2, sum_axis0, sum_axis1, squeeze, flip_rows in H;
    cbn [shape at_] in H; rewrite ?S1, ?S2, ?S3, ?S4 in H;
    change (sliced_shape (All :: s :: [All; All]) (numset f :: [length (energies f); n; n]))
      with (numset f :: sliced_shape (s :: [All; All]) [length (energies f); n; n]) in H;
    rewrite ?SS in H; cbn [sliced_shape tl hd nth filter] in H; rewrite ?SN in H;
    destruct (count =? 1) eqn:C1;
    cbn [filter negb length Nat.ltb Nat.leb Nat.sub app Nat.eqb nth seq combine map fst snd hd tl] in H;
    rewrite ?SN in H;
    cbn [filter negb length Nat.ltb Nat.leb Nat.sub app Nat.eqb nth seq combine map fst snd hd tl] in H;
    rewrite ?C1 in H;
    injection H as <-;
    (split; [cbn [l_data shape]; cbn; rewrite ?C1, ?SN; reflexivity|]);
    (split; [|split; [|split; [|split; reflexivity]]]).
  all: try (intros hi st k r c HI HK HR HC;
    destruct hi as [|[|hi]]; cbn [hemispheres nth_error] in HI;
      try (destruct hi); try discriminate HI; injection HI as <-;
    unfold position, in_file, sum_over; rewrite <- ?ND, ?C1;
    assert (KZ : (count =? 1) = true -> k = 0)
      by (let X := fresh in intros X; apply Nat.eqb_eq in X; lia);
    try (specialize (KZ C1); subst k);
    cbn [l_data at_ app nth firstn length Nat.sub shape unsqueeze hd tl filter];
    rewrite ?C1, ?SN; cbn [negb app nth firstn length Nat.sub shape unsqueeze filter hd tl Nat.eqb];
    rewrite ?C1, ?SN; cbn [negb app nth firstn length Nat.sub shape unsqueeze filter hd tl Nat.eqb sliced_index];
    rewrite ?C1, ?SN; rewrite FS; destruct s; reflexivity).
  all: try (intros P1 P2 P3 P4; exfalso; congruence).
  all: try (intros P1 P2 P3 P4; apply Nat.eqb_neq in P4; rewrite ?C1; cbn [l_axes]; rewrite P4; reflexivity).
  all: intros SUM.
  all: try (exfalso; destruct SUM as [E|[E|[E|E]]]; discriminate E).
  all: unfold expected_axes; rewrite <- ?ND, ?C1, ?NE; try (split; reflexivity).
  all: destruct SUM as [E|[E|[E|E]]]; try discriminate E; rewrite E; split; reflexivity.
Qed.


End Load.

(** C34: the loaded patterns are those with the requested energies, in increasing order of energy: pattern
    number k of hemisphere hi holds the intensities in the file of the k-th requested energy. *)
Theorem C34_exactly_requested_energies t f a p h out : well_formed t f -> read t f a p h = Some out ->
  exists first count,
    (forall i, wanted (energies f) a i <-> first <= i < first + count) /\
    shape (l_data out) = match h with Both => [2] | _ => [] end ++ (if count =? 1 then [] else [count]) ++ [side f; side f] /\
    (forall hi s k r c, nth_error (hemispheres h) hi = Some s -> k < count -> r < side f -> c < side f ->
       at_ (l_data out) (position h hi count k r c) = in_file t f p s (first + k) r c).
Proof.
  intros WF H. destruct (load_all _ _ _ _ _ WF _ H) as [first [count [W [_ [S [V _]]]]]].
  exists first, count. split; [exact W|]. split; assumption.
Qed.
Print Assumptions C34_exactly_requested_energies.

(** C34: loading a well formed file fails exactly when no energy is stored, or the whole range
    is above or below all stored energies. *)
Theorem C34_fails_only_without_energies t f a p h : well_formed t f ->
  (read t f a p h = None <->
   energies f = [] \/
   exists lo hi, a = EnergyRange lo hi /\
     ((forall i e, nth_error (energies f) i = Some e -> (e < lo)%Q) \/ (forall i e, nth_error (energies f) i = Some e -> (hi < e)%Q))).
Proof.
  intros WF. pose proof (side_not_1 _ _ WF) as SN. pose proof (load_all t f a p h WF) as LA.
  destruct WF as [OK [NP [INC [S1 [S2 [S3 S4]]]]]]. apply check_known in OK.
  pose proof (selection_fails (npx f) (energies f) a) as SF.
  destruct (get_data_shape_slices (npx f) (energies f) a) as [[sh sl]|] eqn:G.
  - destruct (selection _ _ _ _ _ INC G) as [s [first [count [-> [CH [-> [LT W]]]]]]].
    split.
    + unfold read. rewrite OK, G. cbn [negb].
      assert (IM : (match [s; All; All] with Range i _ :: _ => i | _ => 0 end) = first).
      { destruct s; cbn in CH; injection CH as <- <-; reflexivity. }
      rewrite IM.
      destruct (nth_error (energies f) first) as [e0|] eqn:N0.
      * intros H. exfalso. destruct p; [|destruct h, t; discriminate H].
        unfold flip_rows, squeeze, read_slices, stack2 in H.
        assert (F : forall d, shape d = [length (energies f); side f; side f] ->
                  exists r, filter (fun n => negb (n =? 1)) (sliced_shape [s; All; All] (shape d)) = r ++ [side f; side f]).
        { intros d E. rewrite E. destruct s; cbn [sliced_shape filter]; rewrite SN; cbn [negb].
          - destruct (negb _); [eexists [_]|exists []]; reflexivity.
          - destruct (negb _); [eexists [_]|exists []]; reflexivity. }
        destruct h; cbn [get_datasets] in H; cbn [shape] in H.
        -- destruct (F _ S1) as [r E]. rewrite E in H. destruct t; cbn [shape] in H; rewrite app_length in H;
             cbn [length] in H; rewrite Nat.add_comm in H; discriminate H.
        -- destruct (F _ S2) as [r E]. rewrite E in H. destruct t; cbn [shape] in H; rewrite app_length in H;
             cbn [length] in H; rewrite Nat.add_comm in H; discriminate H.
        -- destruct (F _ S1) as [r E]. cbn [filter Nat.eqb negb] in H. rewrite E in H. destruct t; cbn [shape length] in H; rewrite app_length in H;
             cbn [length] in H; rewrite Nat.add_comm in H; discriminate H.
      * intros _. left. destruct a.
        -- destruct s; cbn in CH; injection CH as <- <-; cbn in G; [|discriminate].
           apply nth_error_None in N0. destruct (energies f); [reflexivity|cbn in N0; lia].
        -- apply nth_error_None in N0. assert (first < length (energies f)) by (apply LT; discriminate). lia.
        -- apply nth_error_None in N0. assert (first < length (energies f)) by (apply LT; discriminate). lia.
    + intros [E|[lo [hi [-> E]]]].
      * destruct (read t f a p h) as [out|] eqn:R; [|reflexivity].
        destruct (LA _ eq_refl) as [i [c [_ [L _]]]]. rewrite E in L. cbn in L. lia.
      * apply SF in E. discriminate E.
  - assert (X := proj1 SF eq_refl). unfold read. rewrite OK, G. cbn [negb]. split; [intros _|reflexivity].
    destruct a as [|lo hi|e]; [destruct X|right; exists lo, hi; split; [reflexivity|exact X]|left; exact X].
Qed.
Print Assumptions C34_fails_only_without_energies.

(** The energy axis of the loaded signal, if there is one. *)
Definition energy_axis (out : loaded) : option axis := find (fun x => String.eqb (ax_name x) "energy") (l_axes out).

(** A file of any other program is not read, so a reader of one type of diffraction never reads a file of another. *)
Theorem C34_only_own_programs t f a p h : ~ In (program f) (programs t) -> read t f a p h = None.
Proof. intros N. unfold read. destruct (check_file_format t f) eqn:E; [|reflexivity]. elim N. now apply check_known. Qed.
Corollary C34_one_reader_per_file t t' f a p h a' p' h' out out' :
  read t f a p h = Some out -> read t' f a' p' h' = Some out' -> t = t'.
Proof.
  intros A B.
  assert (X : forall t a p h o, read t f a p h = Some o -> In (program f) (programs t)).
  { intros u ? ? ? ? H. destruct (in_dec string_dec (program f) (programs u)); [assumption|]. rewrite C34_only_own_programs in H by assumption. discriminate. }
  apply X in A. apply X in B. destruct t, t'; try reflexivity; exfalso; cbn in A, B;
  destruct A as [A|[A|[]]], B as [B|[B|[]]]; rewrite <- A in B; discriminate B.
Qed.


(** C34: pattern number k is labelled with its energy: the coordinate of k along the energy axis is the
    energy of the k-th requested pattern. Excluded: one hemisphere in the Lambert projection of a file with
    several sites, see C55. *)
Theorem C34_energy_labels_partial t f a p h out : well_formed t f -> evenly_spaced (energies f) (ebinsize f) ->
  p = Stereographic \/ t = ECP \/ h = Both \/ numset f = 1 ->
  read t f a p h = Some out ->
  exists first count,
    (forall i, wanted (energies f) a i <-> first <= i < first + count) /\
    (count <> 1 -> exists ax, energy_axis out = Some ax /\ ax_size ax = count /\ ax_units ax = "keV"%string /\
       nth_error (energies f) first = Some (ax_offset ax) /\
       forall k e, k < count -> nth_error (energies f) (first + k) = Some e -> (coordinate ax k == e)%Q).
Proof.
  intros WF EV C H. destruct (load_all _ _ _ _ _ WF _ H) as [first [count [W [LT [S [_ [AX _]]]]]]].
  exists first, count. split; [exact W|]. intros C1. destruct (AX C) as [K O]. clear AX.
  unfold expected_axes in K. apply Nat.eqb_neq in C1. rewrite C1 in K, O.
  destruct (nth_error (energies f) first) as [e0|] eqn:N0; [|apply nth_error_None in N0; lia].
  rewrite (nth_error_nth _ _ _ N0) in O.
  assert (FIN : exists ax, energy_axis out = Some ax /\ kind ax = ("energy"%string, count, ebinsize f, "keV"%string) /\ ax_offset ax = e0).
  { unfold energy_axis. destruct h; destruct (l_axes out) as [|x0 xs]; try discriminate K;
      change (map kind (x0 :: xs)) with (kind x0 :: map kind xs) in K;
      change (map ax_offset (x0 :: xs)) with (ax_offset x0 :: map ax_offset xs) in O; cbn [app] in K, O;
      pose proof (f_equal (hd (kind x0)) K) as K0; pose proof (f_equal (hd 0%Q) O) as O0; cbn [hd] in K0, O0;
      assert (NM : ax_name x0 = fst (fst (fst (kind x0)))) by reflexivity; rewrite K0 in NM; cbn [fst] in NM;
      cbn [find]; rewrite NM; cbn [String.eqb Ascii.eqb Bool.eqb].
    - exists x0. auto.
    - exists x0. auto.
    - apply (f_equal (@tl _)) in K. apply (f_equal (@tl _)) in O. cbn [tl] in K, O.
      destruct xs as [|x1 xs]; [discriminate K|].
      change (map kind (x1 :: xs)) with (kind x1 :: map kind xs) in K;
      change (map ax_offset (x1 :: xs)) with (ax_offset x1 :: map ax_offset xs) in O;
      pose proof (f_equal (hd (kind x1)) K) as K1; pose proof (f_equal (hd 0%Q) O) as O1; cbn [hd] in K1, O1.
      assert (NM1 : ax_name x1 = fst (fst (fst (kind x1)))) by reflexivity. rewrite K1 in NM1. cbn [fst] in NM1.
      cbn [find]. rewrite NM1. cbn [String.eqb Ascii.eqb Bool.eqb]. exists x1. auto. }
  destruct FIN as [ax [F [K0 O0]]]. unfold kind in K0. injection K0 as A1 A2 A3 A4.
  exists ax. split; [exact F|]. split; [exact A2|]. split; [exact A4|]. split; [rewrite O0; reflexivity|].
  intros k e Hk N. unfold coordinate. rewrite A3, O0. symmetry.
  exact (evenly_spaced_from _ _ _ _ _ _ EV N0 N).
Qed.
Print Assumptions C34_energy_labels_partial.

(** C55: the axes have the names, lengths, scales and units of what they hold. Excluded: one hemisphere in
    the Lambert projection of a file with several sites. *)
Theorem C55_axes_describe_data_partial t f a p h out : well_formed t f ->
  p = Stereographic \/ t = ECP \/ h = Both \/ numset f = 1 ->
  read t f a p h = Some out ->
  exists count, (exists first, forall i, wanted (energies f) a i <-> first <= i < first + count) /\
    map kind (l_axes out) = expected_axes f h count /\ map ax_size (l_axes out) = shape (l_data out) /\
    l_projection out = p /\ l_hemisphere out = h.
Proof.
  intros WF C H. destruct (load_all _ _ _ _ _ WF _ H) as [first [count [W [LT [S [_ [AX [_ PH]]]]]]]].
  exists count. split; [exists first; exact W|]. destruct (AX C) as [K _]. split; [exact K|]. split; [|exact PH].
  rewrite S. apply (f_equal (map (fun k : string * nat * Q * string => snd (fst (fst k))))) in K.
  rewrite map_map in K. cbn [kind fst snd] in K.
  change (fun x : axis => ax_size x) with ax_size in K. rewrite K.
  unfold expected_axes. destruct h, (count =? 1); reflexivity.
Qed.
Print Assumptions C55_axes_describe_data_partial.

(** C55, refuted for EBSD and TKD files of crystals with several sites, for every file and every selection:
    loading one hemisphere in the Lambert projection calls the energy (or height) axis "hemisphere", the
    height axis "energy" (or the width axis "height"), and no axis is called "width". *)
Theorem C55_lambert_several_sites_refuted t f a h out : well_formed t f -> t <> ECP -> h <> Both -> 2 <= numset f ->
  read t f a Lambert h = Some out ->
  nth_error (map ax_name (l_axes out)) 0 = Some "hemisphere"%string /\ ~ In "width"%string (map ax_name (l_axes out)) /\
  forall count, map kind (l_axes out) <> expected_axes f h count.
Proof.
  intros WF T B NS H. destruct (load_all _ _ _ _ _ WF _ H) as [first [count [_ [_ [_ [_ [_ [AX _]]]]]]]].
  assert (N1 : numset f <> 1) by lia. specialize (AX eq_refl T B N1).
  rewrite AX. split; [reflexivity|]. split.
  - destruct (count =? 1); cbn; intros X; repeat destruct X as [X|X]; discriminate X || destruct X.
  - intros c2 K. apply (f_equal (map (fun k : string * nat * Q * string => fst (fst (fst k))))) in K.
    rewrite map_map in K. cbn [kind fst snd] in K. change (fun x : axis => ax_name x) with ax_name in K.
    rewrite AX in K. unfold expected_axes in K. destruct h, (count =? 1), (c2 =? 1); cbn in K; try discriminate K; congruence.
Qed.
Print Assumptions C55_lambert_several_sites_refuted.

(** C35: along height and width, neighbouring pixels are one apart, and pixel i has coordinate
    i - npx - 1. *)
Theorem C35_pixel_coordinates t f a p h out ax i : well_formed t f ->
  p = Stereographic \/ t = ECP \/ h = Both \/ numset f = 1 ->
  read t f a p h = Some out -> In ax (l_axes out) -> ax_name ax = "height"%string \/ ax_name ax = "width"%string ->
  (coordinate ax i == inject_Z (Z.of_nat i - Z.of_nat (npx f) - 1))%Q.
Proof.
  intros WF C H I NM. destruct (load_all _ _ _ _ _ WF _ H) as [first [count [W [LT [S [_ [AX _]]]]]]].
  destruct (AX C) as [K O]. clear AX.
  assert (Q2 : ax_scale ax = 1%Q /\ ax_offset ax = inject_Z (minus_half (side f))).
  { unfold expected_axes in K. revert K O I.
    destruct h, (count =? 1); destruct (l_axes out) as [|x0 [|x1 [|x2 [|x3 [|x4 xs]]]]]; cbn [map app]; intros K O I; try discriminate K;
      injection K as; injection O as;
      repeat destruct I as [<-|I]; try destruct I;
      repeat match goal with E : ax_name _ = _ |- _ => rewrite E in NM; revert E end; intros;
      try (destruct NM as [NM|NM]; discriminate NM); split; congruence. }
  destruct Q2 as [Q1 Q2]. unfold coordinate. rewrite Q1, Q2. unfold side. rewrite minus_half_odd.
  rewrite Qmult_1_r, <- inject_Z_plus. apply inject_Z_injective. lia.
Qed.
Print Assumptions C35_pixel_coordinates.

(** C35, refuted for every file: the central pixel (number npx of 2 npx + 1) has coordinate -1, not 0, along
    height and width. *)
Theorem C35_centred_refuted t f a p h out ax : well_formed t f ->
  p = Stereographic \/ t = ECP \/ h = Both \/ numset f = 1 ->
  read t f a p h = Some out -> In ax (l_axes out) -> ax_name ax = "height"%string \/ ax_name ax = "width"%string ->
  (coordinate ax (npx f) == -1)%Q /\ ~ (coordinate ax (npx f) == 0)%Q.
Proof.
  intros WF C H I NM. assert (E := C35_pixel_coordinates t f a p h out ax (npx f) WF C H I NM).
  replace (Z.of_nat (npx f) - Z.of_nat (npx f) - 1)%Z with (-1)%Z in E by lia.
  split; [exact E|]. rewrite E. discriminate.
Qed.
Print Assumptions C35_centred_refuted.

(** ** A concrete file: 3 x 3 patterns at 18, 19 and 20 keV of a crystal with two sites *)

Definition sp (sh : list nat) (k : Z) : ndarray := Arr sh (fun ix => inject_Z (k + Z.of_nat (fold_left (fun x i => 10 * x + i) ix 0))).
Definition example_file : file :=
  File "EMEBSDmaster.f90" 1 [18; 19; 20]%Q 1%Q 2 (sp [3; 3; 3] 1000) (sp [3; 3; 3] 2000) (sp [2; 3; 3; 3] 3000) (sp [2; 3; 3; 3] 4000).
Example example_well_formed : well_formed EBSD example_file.
Proof.
  split; [now left|]. repeat split; cbn; try lia.
  intros i j x y L Ni Nj. destruct i as [|[|[|i]]], j as [|[|[|j]]]; cbn in Ni, Nj; try lia; try discriminate;
    try (destruct i; discriminate); try (destruct j; discriminate);
    injection Ni as <-; injection Nj as <-; unfold Qle; cbn; lia.
Qed.
Example example_evenly : evenly_spaced (energies example_file) (ebinsize example_file).
Proof.
  intros i x y Ni Nj. destruct i as [|[|[|i]]]; cbn in Ni, Nj; try discriminate;
    try (destruct i; discriminate); injection Ni as <-; injection Nj as <-; reflexivity.
Qed.
(** Two of the three energies, both hemispheres. *)
Example example_read :
  option_map (fun o => (shape (l_data o), map ax_name (l_axes o), at_ (l_data o) [1; 0; 0; 2]))
    (read EBSD example_file (EnergyRange (37 # 2) 25) Stereographic Both)
  = Some ([2; 2; 3; 3], ["hemisphere"; "energy"; "height"; "width"]%string, inject_Z 2122).
Proof. reflexivity. Qed.
(** One hemisphere in the Lambert projection: the wrong names of C55. *)
Example example_wrong_names :
  option_map (fun o => (shape (l_data o), map ax_name (l_axes o))) (read EBSD example_file NoEnergy Lambert Upper)
  = Some ([3; 3; 3], ["hemisphere"; "energy"; "height"]%string).
Proof. reflexivity. Qed.
(** The closest energy. *)
Example example_closest :
  option_map (fun o => (shape (l_data o), at_ (l_data o) [0; 2])) (read EBSD example_file (OneEnergy (96 # 5)) Stereographic Upper)
  = Some ([3; 3], inject_Z 1122).
Proof. reflexivity. Qed.
