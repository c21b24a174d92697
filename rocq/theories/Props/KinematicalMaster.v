(** Kinematical master patterns (property C68). *)
From Coq Require Import List Arith ZArith Reals Bool Lra Lia Psatz Permutation String.
From Verif Require Import Model.Detector Model.Lambert Model.KinematicalMaster Spec.Euler Spec.KikuchiBandIntensity
  Proofs.KinematicalMasterProofs.
Import ListNotations.
Local Open Scope R_scope.

(** ** Specification *)

Inductive side := Upper | Lower.
(** Hemispheres of the names, in any case *)
Definition hemispheres (name : string) : option (list side) :=
  if (lower name =? "upper")%string then Some [Upper]
  else if (lower name =? "lower")%string then Some [Lower]
  else if (lower name =? "both")%string then Some [Upper; Lower] else None.

(** Strength of a plane with structure factor F: |F|, |F|^2 or 1 *)
Definition scaled (scaling : option string) (F : R * R) (x : R) : Prop :=
  (scaling = Some "linear"%string /\ 0 <= x /\ x * x = fst F * fst F + snd F * snd F) \/
  (scaling = Some "square"%string /\ x = fst F * fst F + snd F * snd F) \/
  (scaling = None /\ x = 1).
(** The reflectors, with Bragg angles and structure factors, and the planes they stand for *)
Definition stand_for (r : reflectors) (scaling : option string) (ps : list plane) : Prop :=
  vectors r = map normal ps /\ thetas r = Some (map bragg ps) /\
  exists fs, factors r = Some fs /\ Forall2 (scaled scaling) fs (map strength ps).

(** v is the direction shown in the pixel in the given row and column, of 2 half_size + 1 rows and columns:
    the unit vector whose stereographic projection has x = (col - half_size) / half_size and
    y = (row - half_size) / half_size. *)
Definition shown (s : side) (half_size row col : nat) (v : vec) : Prop :=
  dot3 v v = 1 /\
  let xy := ((INR col - INR half_size) / INR half_size, (INR row - INR half_size) / INR half_size) in
  match s with Upper => vz v <> -1 /\ from_south v = xy | Lower => vz v <> 1 /\ from_north v = xy end.
(** Pixel of the k-th hemisphere *)
Definition pixel (s : signal) (half_size k row col : nat) : option R :=
  match nth_error (data s) k with
  | Some pattern => nth_error pattern (row * (2 * half_size + 1) + col)
  | None => None
  end.

(** ** Proofs *)

(** The stereographic projection determines the direction. *)
Lemma shown_unique s half_size row col u v : shown s half_size row col u -> shown s half_size row col v -> u = v.
Proof.
  intros [Hu Su] [Hv Sv]. cbv zeta in *. set (xy := (_, _)) in *.
  assert (E : match s with Upper => vz u <> -1 /\ vz v <> -1 /\ from_south u = from_south v | Lower => vz u <> 1 /\ vz v <> 1 /\ from_north u = from_north v end).
  { destruct s; (split; [apply Su|split; [apply Sv|rewrite (proj2 Su), (proj2 Sv); reflexivity]]). }
  clear Su Sv. clearbody xy. destruct u as [a b c], v as [x y z]. unfold dot3, from_south, from_north in *. cbn [vx vy vz] in *.
  assert (G : forall t a b c x y z, t * t = 1 -> a * a + b * b + c * c = 1 -> x * x + y * y + z * z = 1 -> t * c <> -1 -> t * z <> -1 ->
    a / (1 + t * c) = x / (1 + t * z) -> b / (1 + t * c) = y / (1 + t * z) -> a = x /\ b = y /\ c = z).
  { clear. intros t a b c x y z Ht H1 H2 Nc Nz E1 E2.
    set (p := a / (1 + t * c)) in *. set (q := b / (1 + t * c)) in *.
    assert (Ea : a = p * (1 + t * c)) by (unfold p; field; lra). assert (Eb : b = q * (1 + t * c)) by (unfold q; field; lra).
    assert (Ex : x = p * (1 + t * z)) by (rewrite E1; field; lra). assert (Ey : y = q * (1 + t * z)) by (rewrite E2; field; lra).
    clearbody p q. subst a b x y. set (m := p * p + q * q).
    assert (C1 : (1 + t * c) * (m * (1 + t * c) - (1 - t * c)) = 0).
    { replace 1 with (t * t) at 4 by exact Ht. unfold m. nra. }
    assert (C2 : (1 + t * z) * (m * (1 + t * z) - (1 - t * z)) = 0) by (unfold m; nra).
    apply Rmult_integral in C1. apply Rmult_integral in C2. destruct C1 as [C1|C1]; [lra|]. destruct C2 as [C2|C2]; [lra|].
    assert (0 <= m) by (unfold m; nra). assert (K : (m + 1) * (t * c - t * z) = 0) by nra.
    apply Rmult_integral in K. destruct K as [K|K]; [lra|]. assert (c = z). { assert (t * (t * c - t * z) = 0) by (rewrite K; ring). nra. }
    subst z. auto. }
  destruct s; destruct E as (N1 & N2 & E); injection E as E1 E2.
  - destruct (G 1 a b c x y z) as (-> & -> & ->); auto; try lra; replace (1 + 1 * c) with (1 + c) by ring; replace (1 + 1 * z) with (1 + z) by ring; assumption.
  - destruct (G (-1) a b c x y z) as (-> & -> & ->); auto; try lra; replace (1 + -1 * c) with (1 - c) by ring; replace (1 + -1 * z) with (1 - z) by ring; assumption.
Qed.

Definition pole_of (s : side) : R := match s with Upper => -1 | Lower => 1 end.
Lemma poles_eq name : poles_from_hemisphere name = option_map (map pole_of) (hemispheres name).
Proof. unfold poles_from_hemisphere, hemispheres. repeat destruct (_ =? _)%string; reflexivity. Qed.

Lemma linspace_eq h k : (1 <= h)%nat -> linspace (2 * h + 1) k = (INR k - INR h) / INR h.
Proof.
  intros Hh. unfold linspace. replace (2 * h + 1 - 1)%nat with (2 * h)%nat by lia. rewrite mult_INR. cbn [INR].
  assert (1 <= INR h) by (change 1 with (INR 1); apply le_INR; lia). field. lra.
Qed.
Lemma xy2vector_shown s h row col : (1 <= h)%nat ->
  shown s h row col (xy2vector (pole_of s) (linspace (2 * h + 1) col, linspace (2 * h + 1) row)).
Proof.
  intros Hh. split; [apply xy2vector_unit; destruct s; simpl; ring|]. rewrite !linspace_eq by exact Hh.
  set (x := (INR col - INR h) / INR h). set (y := (INR row - INR h) / INR h). clearbody x y. cbv zeta.
  assert (D : 1 + x * x + y * y > 0) by nra.
  unfold xy2vector, from_south, from_north, pole_of. cbn [vx vy vz].
  assert (E1 : 1 + - (-1) * (1 - x * x - y * y) / (1 + x * x + y * y) = 2 / (1 + x * x + y * y)) by (field; lra).
  assert (E2 : 1 - - 1 * (1 - x * x - y * y) / (1 + x * x + y * y) = 2 / (1 + x * x + y * y)) by (field; lra).
  assert (0 < 2 / (1 + x * x + y * y)) by (apply Rdiv_lt_0_compat; lra).
  destruct s; cbn [pole_of]; (split; [lra|]); rewrite ?E1, ?E2; f_equal; field; lra.
Qed.

Lemma cabs_eq (x : R) F : 0 <= x -> x * x = fst F * fst F + snd F * snd F -> cabs F = x.
Proof. intros Hx E. unfold cabs. rewrite <- E. now apply sqrt_square. Qed.
Lemma cabs_square F : cabs (cmul F (conjugate F)) = fst F * fst F + snd F * snd F.
Proof. destruct F as [a b]. apply cabs_eq; unfold cmul, conjugate; cbn [fst snd]; [nra|ring]. Qed.
Lemma intensities_eq scaling fs xs : (scaling = None \/ scaling = Some "linear"%string \/ scaling = Some "square"%string) ->
  Forall2 (scaled scaling) fs xs -> intensities scaling fs = Some xs.
Proof.
  intros [-> |[-> | ->]] H; unfold intensities; cbn [String.eqb Ascii.eqb Bool.eqb]; f_equal; induction H as [|F x fs xs HF _ IH]; try reflexivity;
    cbn [List.length repeat map]; (f_equal; [|exact IH]);
    destruct HF as [(A & B & C)|[(A & B)|(A & B)]]; try discriminate.
  - now symmetry.
  - now apply cabs_eq.
  - now rewrite cabs_square.
Qed.
Lemma intensities_unknown scaling fs : scaling <> None -> scaling <> Some "linear"%string -> scaling <> Some "square"%string -> intensities scaling fs = None.
Proof.
  intros H1 H2 H3. unfold intensities. destruct scaling as [s|]; [|easy].
  destruct (String.eqb_spec s "linear"); [subst; easy|]. destruct (String.eqb_spec s "square"); [subst; easy|]. reflexivity.
Qed.

Lemma grid_nth h pole row col : (row < 2 * h + 1)%nat -> (col < 2 * h + 1)%nat ->
  nth (row * (2 * h + 1) + col) (map (xy2vector pole) (grid (2 * h + 1))) origin
  = xy2vector pole (linspace (2 * h + 1) col, linspace (2 * h + 1) row)
  /\ (row * (2 * h + 1) + col < List.length (map (xy2vector pole) (grid (2 * h + 1))))%nat.
Proof.
  intros Hr Hc. set (n := (2 * h + 1)%nat) in *. assert (B : (row * n + col < n * n)%nat) by nia.
  assert (L : List.length (map (xy2vector pole) (grid n)) = (n * n)%nat) by (unfold grid; now rewrite !map_length, seq_length).
  split; [|now rewrite L]. apply nth_error_nth. unfold grid. rewrite map_map, nth_error_map.
  rewrite (nth_error_nth' _ 0%nat) by now rewrite seq_length. rewrite seq_nth by exact B. cbn [option_map Nat.add].
  replace ((row * n + col) mod n) with col by (rewrite Nat.add_comm, Nat.mod_add by lia; now rewrite Nat.mod_small).
  replace ((row * n + col) / n)%nat with row by (rewrite Nat.add_comm, Nat.div_add by lia; rewrite Nat.div_small by lia; lia). reflexivity.
Qed.

(** Values of all pixels, for any planes *)
Lemma pixel_values r scaling ps h name sides :
  (scaling = None \/ scaling = Some "linear"%string \/ scaling = Some "square"%string) ->
  stand_for r scaling ps -> Forall (fun p => normal p <> Vec 0 0 0 /\ 0 < bragg p < PI / 2) ps ->
  (1 <= h)%nat -> hemispheres name = Some sides ->
  exists s, calculate_master_pattern r h name scaling = Some s /\ List.length (data s) = List.length sides /\
    forall k side row col v, nth_error sides k = Some side -> (row < 2 * h + 1)%nat -> (col < 2 * h + 1)%nat ->
      shown side h row col v -> pixel s h k row col = Some (total (map (fun p => half_band p v) ps)).
Proof.
  intros Hs (Hv & Ht & fs & Hf & H2) Hp Hh Hn. unfold calculate_master_pattern. rewrite Ht, Hf, (intensities_eq _ _ _ Hs H2), poles_eq, Hn. cbn [option_map].
  eexists. split; [reflexivity|]. cbn [data]. split; [now rewrite !map_length|].
  intros k sd row col v Hk Hr Hc Hsh. unfold pixel. cbn [data]. rewrite !nth_error_map, Hk. cbn [option_map].
  destruct (grid_nth h (pole_of sd) row col Hr Hc) as [E L].
  rewrite get_pattern_nth by exact L. f_equal. rewrite Hv, !map_length.
  rewrite <- (shown_unique _ _ _ _ _ _ (xy2vector_shown sd h row col Hh) Hsh). 
  set (w := xy2vector _ _) in *. assert (Hw : dot3 w w = 1) by (apply xy2vector_unit; destruct sd; simpl; ring).
  clearbody w. set (hemi := map (xy2vector (pole_of sd)) (grid (2 * h + 1))) in *. clearbody hemi.
  unfold share. rewrite E. clear - Hp Hw.
  assert (G : forall ps, Forall (fun p => normal p <> Vec 0 0 0 /\ 0 < bragg p < PI / 2) ps ->
    map (fun i => match addition (nth i (map strength ps) 0) (nth i (map bragg ps) 0) (nth i (map normalise (map normal ps)) origin) w with Some c => c | None => 0 end)
      (seq 0 (List.length ps)) = map (fun p => half_band p w) ps).
  { clear ps Hp. induction ps as [|p ps IH]; intros Hp; [reflexivity|]. inversion Hp as [|? ? [H1 H2] H3]; subst.
    cbn [List.length seq map nth]. f_equal; [now apply addition_half_band|]. rewrite <- seq_shift, map_map. exact (IH H3). }
  now rewrite G.
Qed.

(** ** C68 *)

(** Every pixel of every hemisphere is the sum of the intensities of the Kikuchi bands which the direction
    shown in it lies in, each once, when the reflectors are the two sides of planes.  The direction is the
    one with the pixel's stereographic coordinates, of which there is one. *)
Theorem C68_each_band_once r scaling planes h name sides :
  (scaling = None \/ scaling = Some "linear"%string \/ scaling = Some "square"%string) ->
  (exists ps, stand_for r scaling ps /\ Permutation ps (planes ++ map other_side planes)) -> Forall proper planes ->
  (1 <= h)%nat -> hemispheres name = Some sides ->
  exists s, calculate_master_pattern r h name scaling = Some s /\ List.length (data s) = List.length sides /\
    forall k side row col, nth_error sides k = Some side -> (row < 2 * h + 1)%nat -> (col < 2 * h + 1)%nat ->
      exists v, shown side h row col v /\ pixel s h k row col = Some (band_intensity planes v).
Proof.
  intros Hs (ps & Hst & Hperm) Hp Hh Hn.
  destruct (pixel_values r scaling ps h name sides Hs Hst) as (s & E & L & P); auto.
  - eapply Permutation_Forall; [symmetry; exact Hperm|]. apply Forall_app. split.
    + eapply Forall_impl; [|exact Hp]. intros p (A & _ & B). auto.
    + apply Forall_map. eapply Forall_impl; [|exact Hp]. intros p (A & _ & B). split; [|exact B].
      unfold other_side, negated. cbn [normal]. destruct (normal p) as [x y z]. cbn [vx vy vz]. intros X. injection X as X1 X2 X3. apply A. f_equal; lra.
  - exists s. split; [exact E|]. split; [exact L|]. intros k sd row col Hk Hr Hc. exists (xy2vector (pole_of sd) (linspace (2 * h + 1) col, linspace (2 * h + 1) row)).
    split; [now apply xy2vector_shown|]. rewrite (P k sd row col _ Hk Hr Hc (xy2vector_shown sd h row col Hh)). f_equal.
    rewrite (total_permutation _ _ (Permutation_map _ Hperm)). apply half_bands_of_pairs. eapply Forall_impl; [|exact Hp]. intros p (_ & A & _). exact A.
Qed.
Theorem C68_direction_unique s h row col u v : shown s h row col u -> shown s h row col v -> u = v.
Proof. apply shown_unique. Qed.

(** A reflector without its opposite gives the half of the band on its side only. *)
Theorem C68_single_reflectors_give_half_bands r scaling ps h name sides :
  (scaling = None \/ scaling = Some "linear"%string \/ scaling = Some "square"%string) ->
  stand_for r scaling ps -> Forall (fun p => normal p <> Vec 0 0 0 /\ 0 < bragg p < PI / 2) ps ->
  (1 <= h)%nat -> hemispheres name = Some sides ->
  exists s, calculate_master_pattern r h name scaling = Some s /\
    forall k side row col v, nth_error sides k = Some side -> (row < 2 * h + 1)%nat -> (col < 2 * h + 1)%nat ->
      shown side h row col v ->
      pixel s h k row col = Some (total (map (fun p =>
        if Rle_dec (Rabs (elevation p v)) (/ 10000000) then strength p / 2
        else if Rle_dec 0 (elevation p v) then if Rle_dec (elevation p v) (sin (bragg p)) then strength p else 0 else 0) ps)).
Proof.
  intros Hs Hst Hp Hh Hn. destruct (pixel_values r scaling ps h name sides Hs Hst Hp Hh Hn) as (s & E & _ & P). exists s. split; [exact E|]. exact P.
Qed.

(** Symmetry: a transformation of space which preserves angles and maps the reflectors onto each other,
    with their Bragg angles and intensities, maps directions to directions of the same intensity. *)
Definition moved (M : vec -> vec) (p : plane) : plane := Plane (M (normal p)) (bragg p) (strength p).
Theorem C68_crystal_symmetry r scaling ps h name sides M :
  (scaling = None \/ scaling = Some "linear"%string \/ scaling = Some "square"%string) ->
  stand_for r scaling ps -> Forall (fun p => normal p <> Vec 0 0 0 /\ 0 < bragg p < PI / 2) ps ->
  (1 <= h)%nat -> hemispheres name = Some sides ->
  (forall u v, dot3 (M u) (M v) = dot3 u v) -> Permutation (map (moved M) ps) ps ->
  exists s, calculate_master_pattern r h name scaling = Some s /\
    forall k side row col v k' side' row' col', nth_error sides k = Some side -> nth_error sides k' = Some side' ->
      (row < 2 * h + 1)%nat -> (col < 2 * h + 1)%nat -> (row' < 2 * h + 1)%nat -> (col' < 2 * h + 1)%nat ->
      shown side h row col v -> shown side' h row' col' (M v) -> pixel s h k row col = pixel s h k' row' col'.
Proof.
  intros Hs Hst Hp Hh Hn HM Hperm. destruct (pixel_values r scaling ps h name sides Hs Hst Hp Hh Hn) as (s & E & _ & P). exists s. split; [exact E|].
  intros k sd row col v k' sd' row' col' Hk Hk' Hr Hc Hr' Hc' Hv HMv.
  rewrite (P k sd row col v), (P k' sd' row' col' (M v)); auto. f_equal.
  rewrite <- (total_permutation _ _ (Permutation_map (fun p => half_band p (M v)) Hperm)). rewrite map_map. apply total_ext. intros p _.
  unfold half_band, moved, elevation, length3. cbn [normal bragg strength]. now rewrite !HM.
Qed.

(** With the two sides of planes, the lower hemisphere is the upper one turned by half a turn. *)
Theorem C68_lower_is_upper_turned r scaling planes h name :
  (scaling = None \/ scaling = Some "linear"%string \/ scaling = Some "square"%string) ->
  (exists ps, stand_for r scaling ps /\ Permutation ps (planes ++ map other_side planes)) ->
  Forall (fun p => normal p <> Vec 0 0 0 /\ 0 < bragg p < PI / 2) planes ->
  (1 <= h)%nat -> hemispheres name = Some [Upper; Lower] ->
  exists s, calculate_master_pattern r h name scaling = Some s /\
    forall row col, (row < 2 * h + 1)%nat -> (col < 2 * h + 1)%nat ->
      pixel s h 1 row col = pixel s h 0 (2 * h - row) (2 * h - col).
Proof.
  intros Hs (ps & Hst & Hperm) Hp Hh Hn.
  assert (Hp' : Forall (fun p => normal p <> Vec 0 0 0 /\ 0 < bragg p < PI / 2) ps).
  { eapply Permutation_Forall; [symmetry; exact Hperm|]. apply Forall_app. split; [exact Hp|].
    apply Forall_map. eapply Forall_impl; [|exact Hp]. intros p (A & B). split; [|exact B].
    unfold other_side, negated. cbn [normal]. destruct (normal p) as [x y z]. cbn [vx vy vz]. intros X. injection X as X1 X2 X3. apply A. f_equal; lra. }
  assert (I : forall p, moved negated (other_side p) = p).
  { intros [n b s]. unfold moved, other_side, negated. cbn [normal bragg strength vx vy vz]. destruct n as [x y z]. cbn [vx vy vz]. f_equal. f_equal; ring. }
  destruct (C68_crystal_symmetry r scaling ps h name [Upper; Lower] negated Hs Hst Hp' Hh Hn) as (s & E & P).
  - intros u v. unfold dot3, negated. cbn [vx vy vz]. ring.
  - rewrite (Permutation_map (moved negated) Hperm), map_app, map_map, (map_ext _ (fun p => p) I), map_id, Hperm.
    apply Permutation_app_comm.
  - exists s. split; [exact E|]. intros row col Hr Hc.
    apply (P 1%nat Lower row col (xy2vector 1 (linspace (2 * h + 1) col, linspace (2 * h + 1) row)) 0%nat Upper); try lia; try reflexivity.
    + exact (xy2vector_shown Lower h row col Hh).
    + assert (W : negated (xy2vector 1 (linspace (2 * h + 1) col, linspace (2 * h + 1) row))
                  = xy2vector (-1) (linspace (2 * h + 1) (2 * h - col), linspace (2 * h + 1) (2 * h - row))).
      { rewrite !linspace_eq by exact Hh.
        assert (X : forall k, (k < 2 * h + 1)%nat -> (INR (2 * h - k) - INR h) / INR h = - ((INR k - INR h) / INR h)).
        { intros k Hk. rewrite minus_INR, mult_INR by lia. cbn [INR]. assert (1 <= INR h) by (change 1 with (INR 1); apply le_INR; lia). field. lra. }
        rewrite !X by assumption. set (x := (INR col - INR h) / INR h). set (y := (INR row - INR h) / INR h). clearbody x y.
        unfold negated, xy2vector. cbn [vx vy vz]. assert (1 + x * x + y * y > 0) by nra. f_equal; field; nra. }
      rewrite W. exact (xy2vector_shown Upper h (2 * h - row) (2 * h - col) Hh).
Qed.

(** Unknown hemispheres and scalings, and reflectors without Bragg angles or structure factors, are refused. *)
Theorem C68_refused r h name scaling :
  hemispheres name = None \/ (scaling <> None /\ scaling <> Some "linear"%string /\ scaling <> Some "square"%string)
  \/ thetas r = None \/ factors r = None -> calculate_master_pattern r h name scaling = None.
Proof.
  unfold calculate_master_pattern. intros H. destruct (thetas r) as [th|]; [|reflexivity]. destruct (factors r) as [fs|]; [|reflexivity].
  destruct H as [H|[(H1 & H2 & H3)|[H|H]]]; try discriminate.
  - rewrite poles_eq, H. reflexivity.
  - rewrite (intensities_unknown scaling fs H1 H2 H3). destruct (poles_from_hemisphere name); reflexivity.
Qed.

(** One axis of the signal per dimension of its array, for hemispheres named in lower case... *)
Theorem C68_axes r h name scaling s : lower name = name -> calculate_master_pattern r h name scaling = Some s ->
  List.length (axes s) = data_ndim s.
Proof.
  unfold calculate_master_pattern, poles_from_hemisphere. intros -> H.
  destruct (thetas r) as [th|]; [|discriminate]. destruct (factors r) as [fs|]; [|discriminate].
  destruct (String.eqb_spec name "upper") as [->|]; [|destruct (String.eqb_spec name "lower") as [->|]; [|destruct (String.eqb_spec name "both") as [->|]; [|discriminate]]];
    destruct (intensities scaling fs); try discriminate; injection H as <-; reflexivity.
Qed.
(** ... but not for "Both" or "BOTH", although the other arguments are accepted in any case: the array has
    two hemispheres and there is no axis for them. *)
Theorem C68_axes_of_capitals_refuted : ~ (forall r h name scaling s, calculate_master_pattern r h name scaling = Some s -> List.length (axes s) = data_ndim s).
Proof.
  intros H. specialize (H (Reflectors [] (Some []) (Some [])) 1%nat "Both"%string None).
  unfold calculate_master_pattern in H. cbn [thetas factors] in H. specialize (H _ eq_refl). discriminate.
Qed.
(** The axes put -1, not 0, on the pixel in the middle, which shows the pole: offset -half_size - 1. *)
Theorem C68_origin_of_axes_refuted r h name scaling s : calculate_master_pattern r h name scaling = Some s ->
  Forall (fun a => (fst a = Z.of_nat (2 * h + 1) -> snd a + Z.of_nat h = -1)%Z) (axes s).
Proof.
  unfold calculate_master_pattern. destruct (thetas r) as [th|]; [|discriminate]. destruct (factors r) as [fs|]; [|discriminate].
  destruct (poles_from_hemisphere name) as [poles|]; [|discriminate]. destruct (intensities scaling fs); [|discriminate]. intros H. injection H as <-. cbn [axes].
  assert (E : (- Z.of_nat (2 * h + 1) / 2 + Z.of_nat h = -1)%Z).
  { replace (- Z.of_nat (2 * h + 1))%Z with (1 + (- Z.of_nat h - 1) * 2)%Z by lia. rewrite Z.div_add by lia. change (1 / 2)%Z with 0%Z. lia. }
  assert (G : Forall (fun a => (fst a = Z.of_nat (2 * h + 1) -> snd a + Z.of_nat h = -1)%Z)
    [(Z.of_nat (2 * h + 1), (- Z.of_nat (2 * h + 1) / 2)%Z); (Z.of_nat (2 * h + 1), (- Z.of_nat (2 * h + 1) / 2)%Z)]).
  { repeat constructor; cbn [fst snd]; intros _; exact E. }
  destruct (name =? "both")%string; [|exact G]. constructor; [|exact G]. cbn [fst snd]. intros X. lia.
Qed.

(** Example: the planes parallel to the xy plane, reflectors 002 and 00-2, Bragg angle 30 degrees, |F| = 3:
    the direction in the middle of the right edge lies in their band, and that of the middle pixel, along z, does not. *)
Definition basal : plane := Plane (Vec 0 0 2) (PI / 6) 3.
Definition basal_reflectors : reflectors :=
  Reflectors [Vec 0 0 2; Vec 0 0 (-2)] (Some [PI / 6; PI / 6]) (Some [(0, 3); (0, -3)]).
Lemma basal_proper : proper basal.
Proof.
  unfold proper, basal. cbn [normal bragg]. rewrite sin_PI6. pose proof PI_RGT_0 as P0. repeat split; try lra.
  intros H. injection H as H. lra.
Qed.
Lemma basal_stand_for : exists ps, stand_for basal_reflectors (Some "linear"%string) ps /\ Permutation ps ([basal] ++ map other_side [basal]).
Proof.
  exists [basal; other_side basal]. split; [|reflexivity]. unfold stand_for, basal_reflectors. cbn [vectors thetas factors map].
  split; [|split; [reflexivity|]].
  - unfold other_side, basal, negated. cbn [normal vx vy vz]. repeat f_equal; ring.
  - exists [(0, 3); (0, -3)]. split; [reflexivity|]. constructor; [|constructor; [|constructor]]; left; cbn [fst snd basal other_side strength]; (split; [reflexivity|]); split; try lra; ring.
Qed.
Example basal_example : exists s, calculate_master_pattern basal_reflectors 1 "both" (Some "linear"%string) = Some s /\
  pixel s 1 0 1 2 = Some 3 /\ pixel s 1 0 1 1 = Some 0.
Proof.
  destruct (C68_each_band_once basal_reflectors (Some "linear"%string) [basal] 1 "both" [Upper; Lower]) as (s & E & _ & P); auto using basal_stand_for, basal_proper.
  exists s. split; [exact E|].
  assert (K : forall z, elevation basal (Vec (1 - z) 0 z) = z).
  { intros z. unfold elevation, basal, length3, dot3. cbn [normal vx vy vz]. replace (0 * 0 + 0 * 0 + 2 * 2) with (2 * 2) by ring. rewrite sqrt_square by lra. field. }
  split.
  - destruct (P 0%nat Upper 1%nat 2%nat) as (v & Hv & ->); try lia; try reflexivity. f_equal.
    rewrite (shown_unique Upper 1 1 2 v (Vec (1 - 0) 0 0) Hv).
    + unfold band_intensity. cbn [map total fold_right]. unfold in_band_dec, in_band. rewrite K, Rabs_R0. cbn [basal bragg]. rewrite sin_PI6. destruct (Rle_dec 0 (1 / 2)); [simpl; lra|lra].
    + split; [unfold dot3; cbn [vx vy vz]; ring|]. cbv zeta. cbn [vz]. split; [lra|]. unfold from_south. cbn [vx vy vz INR]. f_equal; field.
  - destruct (P 0%nat Upper 1%nat 1%nat) as (v & Hv & ->); try lia; try reflexivity. f_equal.
    rewrite (shown_unique Upper 1 1 1 v (Vec (1 - 1) 0 1) Hv).
    + unfold band_intensity. cbn [map total fold_right]. unfold in_band_dec, in_band. rewrite K, Rabs_R1. cbn [basal bragg]. rewrite sin_PI6. destruct (Rle_dec 1 (1 / 2)); [lra|lra].
    + split; [unfold dot3; cbn [vx vy vz]; ring|]. cbv zeta. cbn [vz]. split; [lra|]. unfold from_south. cbn [vx vy vz INR]. f_equal; field.
Qed.
Print Assumptions C68_each_band_once.
