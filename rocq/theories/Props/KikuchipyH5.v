(** C29: saving to and loading from kikuchipy's h5ebsd format. *)
From Coq Require Import String List Arith ZArith Bool Lia.
From Verif Require Import Model.Binary Model.KikuchipyH5 Proofs.BinaryProofs.
Import ListNotations.
Local Open Scope nat_scope.
Local Open Scope list_scope.

Section C.
Context {S : Type} (one : S).
Definition nav_shape (s : signal S) : list nat := map (fun a => fst (fst a)) (nav s).
(** A signal: at most two navigation axes, patterns filling all of them, and one PC or one for each pattern. *)
Definition well_formed (s : signal S) : Prop :=
  length (nav s) <= 2 /\ Forall (fun n => 1 <= n) (nav_shape s) /\ 1 <= sy s /\ 1 <= sx s /\
  shape (data s) = nav_shape s ++ [sy s; sx s] /\ length (elems (data s)) = size_of (shape (data s)) /\
  (pc_shape (det s) = [1] \/ pc_shape (det s) = nav_shape s /\ nav_shape s <> []) /\ length (pcs (det s)) = size_of (pc_shape (det s)).
(** The axes a signal has after loading. *)
Definition standard_names (axes : list (nat * string * S)) : list string :=
  match axes with [(_, name, _)] => [if String.eqb name "y" then "y" else "x"]%string | [_; _] => ["y"; "x"]%string | _ => [] end.
Definition load_after_save (s : signal S) : option (loaded S) := let? f := write one s in read f.

(** Signals without unit axes come back: patterns, axes with their sizes and steps, PCs, angles, pixel size, binning, and
    the static background if there is one. The scale of the signal axes is the detector pixel size. *)
Theorem C29_round_trip_partial : forall s b, well_formed s -> Forall (fun n => 2 <= n) (nav_shape s) -> 2 <= sy s -> 2 <= sx s ->
  background s = Some b -> shape b = [sy s; sx s] ->
  exists r, load_after_save s = Some r /\
    l_data r = data s /\ l_background r = Array b /\ l_det r = det s /\
    map (fun a => ax_size a) (l_axes r) = nav_shape s ++ [sy s; sx s] /\
    map (fun a => ax_index a) (l_axes r) = seq 0 (length (nav s) + 2) /\
    map (fun a => ax_name a) (l_axes r) = standard_names (nav s) ++ ["dy"; "dx"]%string /\
    map (fun a => ax_scale a) (l_axes r) = map (fun a => snd a) (nav s) ++ [px_size (det s); px_size (det s)].
Proof.
  intros [nv h w sc [dsh dl] bg [px bi ti az tw st psh pl]] b (L & _ & _ & _ & DS & DL & PC & PL) N2 H2 W2 B BS.
  cbn [sy sx background nav data det shape elems pc_shape pcs px_size] in *. subst bg.
  destruct b as [bsh bl]. cbn [shape] in BS. subst bsh.
  assert (NE : forall n, 2 <= n -> (n =? 1) = false) by (intros; apply Nat.eqb_neq; lia).
  assert (UB : unwrap (Array (Nd [h; w] bl)) = Array (Nd [h; w] bl)).
  { unfold unwrap. cbn [shape elems unwrap_shape]. destruct h as [|[|h]]; [lia|lia|reflexivity]. }
  unfold nav_shape in *. cbn [nav] in *. subst dsh.
  unfold load_after_save, write. cbn [nav data sy sx elems det px_size binning tilt azimuthal twist sample_tilt pc_shape pcs background].
  destruct nv as [|[[n0 m0] d0] [|[[n1 m1] d1] [|? ?]]]; [| | |cbn [length] in L; lia]; cbn [map fst app] in *.
  - cbn [nav_shape_scale]. cbn [size_of fold_right] in DL. rewrite DL.
    replace (h * (w * 1) =? 1 * 1 * (h * w)) with true by (symmetry; apply Nat.eqb_eq; lia). cbn [bind].
    unfold read, get_data. cbn [n_rows n_columns pattern_height pattern_width patterns elems h_pc_shape h_pcs static_background step_y step_x detector_pixel_size h_binning elevation_angle azimuth_angle twist_angle h_sample_tilt].
    cbn [size_of fold_right]. rewrite DL. replace (h * (w * 1) =? 1 * (1 * (h * (w * 1)))) with true by (symmetry; apply Nat.eqb_eq; lia). cbn [bind].
    destruct PC as [->|[_ C]]; [|now destruct C]. cbn [bind read_pc_shape unwrap_shape dstack_shape size_of fold_right Nat.mul Nat.add Nat.ltb Nat.leb squeeze_shape filter Nat.eqb negb].
    eexists. split; [reflexivity|]. cbn [l_data l_background l_det l_axes]. rewrite UB.
    unfold squeeze, squeeze_shape. cbn [shape elems filter Nat.eqb negb]. rewrite !NE by lia. cbn [negb].
    repeat split.
  - apply Forall_cons_iff in N2 as [N0 _].
    assert (SH : exists ny nx dy dx, nav_shape_scale one [(n0, m0, d0)] = ((ny, nx), (dy, dx)) /\ ny * nx = n0 /\
       squeeze_shape [ny; nx; h; w] = [n0; h; w] /\ squeeze_shape [ny; nx] = [n0] /\
       get_axes ny nx h w dy dx px = [Axis n0 0 (if String.eqb m0 "y" then "y" else "x")%string d0; Axis h 1 "dy"%string px; Axis w 2 "dx"%string px]).
    { cbn [nav_shape_scale]. destruct (String.eqb m0 "y").
      - do 4 eexists. split; [reflexivity|]. split; [lia|]. unfold squeeze_shape. cbn [filter]. rewrite (NE n0), (NE h), (NE w) by lia. cbn [negb Nat.eqb].
        split; [reflexivity|]. split; [reflexivity|]. unfold get_axes. rewrite (NE n0) by lia. cbn [negb Nat.eqb].
        destruct n0 as [|[|n0]]; [lia|lia|reflexivity].
      - do 4 eexists. split; [reflexivity|]. split; [lia|]. unfold squeeze_shape. cbn [filter]. rewrite (NE n0), (NE h), (NE w) by lia. cbn [negb Nat.eqb].
        split; [reflexivity|]. split; [reflexivity|]. unfold get_axes. rewrite (NE n0) by lia. cbn [negb Nat.eqb].
        replace (n0 <? 1) with false by (symmetry; apply Nat.ltb_ge; lia). reflexivity. }
    destruct SH as (ny & nx & dy & dx & -> & P & Q4 & Q2 & AX).
    cbn [size_of fold_right] in DL. rewrite DL.
    replace (n0 * (h * (w * 1)) =? ny * nx * (h * w)) with true by (symmetry; apply Nat.eqb_eq; rewrite P; lia). cbn [bind].
    unfold read, get_data. cbn [n_rows n_columns pattern_height pattern_width patterns elems h_pc_shape h_pcs static_background step_y step_x detector_pixel_size h_binning elevation_angle azimuth_angle twist_angle h_sample_tilt].
    cbn [size_of fold_right]. rewrite DL.
    replace (n0 * (h * (w * 1)) =? ny * (nx * (h * (w * 1)))) with true by (symmetry; apply Nat.eqb_eq; rewrite <- P; lia). cbn [bind].
    assert (PS : read_pc_shape ny nx psh = Some psh).
    { destruct PC as [->|[-> _]]; [reflexivity|]. unfold read_pc_shape.
      assert (U : unwrap_shape [n0] = [n0]) by (destruct n0 as [|[|n0]]; [lia|lia|reflexivity]). rewrite U. cbn [dstack_shape size_of fold_right].
      replace (1 <? 1 * (n0 * 1)) with true by (symmetry; apply Nat.ltb_lt; lia).
      replace (1 * (n0 * 1) =? ny * nx) with true by (symmetry; apply Nat.eqb_eq; lia). cbn [bind]. rewrite Q2. reflexivity. }
    rewrite PS. cbn [bind]. eexists. split; [reflexivity|]. cbn [l_data l_background l_det l_axes]. rewrite UB, AX.
    unfold squeeze. cbn [shape elems]. rewrite Q4. repeat split.
  - apply Forall_cons_iff in N2 as [N0 N2]. apply Forall_cons_iff in N2 as [N1 _].
    cbn [nav_shape_scale]. cbn [size_of fold_right] in DL. rewrite DL.
    replace (n0 * (n1 * (h * (w * 1))) =? n0 * n1 * (h * w)) with true by (symmetry; apply Nat.eqb_eq; lia). cbn [bind].
    unfold read, get_data. cbn [n_rows n_columns pattern_height pattern_width patterns elems h_pc_shape h_pcs static_background step_y step_x detector_pixel_size h_binning elevation_angle azimuth_angle twist_angle h_sample_tilt].
    cbn [size_of fold_right]. rewrite DL, Nat.eqb_refl. cbn [bind].
    assert (PS : read_pc_shape n0 n1 psh = Some psh).
    { destruct PC as [->|[-> _]]; [reflexivity|]. unfold read_pc_shape.
      assert (U : unwrap_shape [n0; n1] = [n0; n1]) by (destruct n0 as [|[|n0]]; [lia|lia|reflexivity]). rewrite U. cbn [dstack_shape size_of fold_right].
      replace (1 <? n0 * (n1 * 1)) with true by (symmetry; apply Nat.ltb_lt; nia).
      replace (n0 * (n1 * 1) =? n0 * n1) with true by (symmetry; apply Nat.eqb_eq; lia). cbn [bind].
      unfold squeeze_shape. cbn [filter]. rewrite !NE by lia. reflexivity. }
    rewrite PS. cbn [bind]. eexists. split; [reflexivity|]. cbn [l_data l_background l_det l_axes]. rewrite UB.
    unfold squeeze, squeeze_shape. cbn [shape elems filter]. rewrite !NE by lia. cbn [negb].
    unfold get_axes. rewrite !NE by lia. repeat split.
Qed.

(** A background with a single row loses it. *)
Theorem C29_background_of_one_row_refuted : forall s b, background s = Some b -> shape b = [1; sx s] ->
  forall r, load_after_save s = Some r -> l_background r = Array (Nd [sx s] (elems b)).
Proof.
  intros s b B SB r. unfold load_after_save, write. destruct (nav_shape_scale one (nav s)) as [[ny nx] [dy dx]].
  destruct (_ =? _); [|discriminate]. cbn [bind]. unfold read. destruct (get_data _); [|discriminate]. cbn [bind].
  destruct (read_pc_shape _ _ _); [|discriminate]. cbn [bind]. intros [= <-]. cbn [l_background static_background]. rewrite B. cbn [unwrap]. rewrite SB. reflexivity.
Qed.

(** A signal without static background gets the number -1 as background. *)
Theorem C29_no_background_refuted : forall s, background s = None ->
  forall r, load_after_save s = Some r -> l_background r = Number (-1).
Proof.
  intros s B r. unfold load_after_save, write. destruct (nav_shape_scale one (nav s)) as [[ny nx] [dy dx]].
  destruct (_ =? _); [|discriminate]. cbn [bind]. unfold read. destruct (get_data _); [|discriminate]. cbn [bind].
  destruct (read_pc_shape _ _ _); [|discriminate]. cbn [bind]. intros [= <-]. cbn [l_background static_background]. rewrite B. reflexivity.
Qed.

(** All signals can be loaded again with all their patterns: the shape is the one without unit dimensions. *)
Theorem C29_patterns_kept : forall s, well_formed s ->
  exists r, load_after_save s = Some r /\ elems (l_data r) = elems (data s) /\
    shape (l_data r) = squeeze_shape (nav_shape s ++ [sy s; sx s]) /\
    pcs (l_det r) = pcs (det s) /\ tilt (l_det r) = tilt (det s) /\ azimuthal (l_det r) = azimuthal (det s) /\
    twist (l_det r) = twist (det s) /\ sample_tilt (l_det r) = sample_tilt (det s) /\ binning (l_det r) = binning (det s) /\
    px_size (l_det r) = px_size (det s).
Proof.
  intros [nv h w sc [dsh dl] bg [px bi ti az tw st psh pl]] (L & N1 & H1 & W1 & DS & DL & PC & PL).
  cbn [sy sx background nav data det shape elems pc_shape pcs px_size] in *.
  unfold nav_shape in *. cbn [nav] in *. subst dsh.
  unfold load_after_save, write. cbn [nav data sy sx elems det px_size binning tilt azimuthal twist sample_tilt pc_shape pcs background].
  assert (K : exists ny nx dy dx, nav_shape_scale one nv = ((ny, nx), (dy, dx)) /\ length dl = ny * nx * (h * w) /\
    squeeze_shape [ny; nx; h; w] = squeeze_shape (map (fun a => fst (fst a)) nv ++ [h; w]) /\
    exists p, read_pc_shape ny nx psh = Some p).
  { destruct nv as [|[[n0 m0] d0] [|[[n1 m1] d1] [|? ?]]]; [| | |cbn [length] in L; lia]; cbn [map fst app] in *; cbn [nav_shape_scale].
    - do 4 eexists. split; [reflexivity|]. split; [cbn [size_of fold_right] in DL; lia|]. split; [reflexivity|].
      destruct PC as [->|[_ C]]; [|now destruct C]. eexists. reflexivity.
    - apply Forall_cons_iff in N1 as [N0 _]. cbn [size_of fold_right] in DL.
      assert (PS : forall ny nx, ny * nx = n0 -> exists p, read_pc_shape ny nx psh = Some p).
      { intros ny nx P. destruct PC as [->|[-> _]]; [eexists; reflexivity|]. unfold read_pc_shape.
        destruct n0 as [|[|n0]]; [lia|eexists; reflexivity|]. cbn [unwrap_shape dstack_shape].
        replace (1 <? size_of _) with true by (symmetry; apply Nat.ltb_lt; cbn [size_of fold_right]; lia).
        replace (size_of _ =? ny * nx) with true by (symmetry; apply Nat.eqb_eq; cbn [size_of fold_right]; lia). eexists; reflexivity. }
      destruct (String.eqb m0 "y").
      + do 4 eexists. split; [reflexivity|]. split; [lia|]. split; [|apply PS; lia]. unfold squeeze_shape. cbn [filter Nat.eqb negb]. reflexivity.
      + do 4 eexists. split; [reflexivity|]. split; [lia|]. split; [|apply PS; lia]. unfold squeeze_shape. cbn [filter Nat.eqb negb]. reflexivity.
    - apply Forall_cons_iff in N1 as [N0 N1]. apply Forall_cons_iff in N1 as [N1 _]. cbn [size_of fold_right] in DL.
      do 4 eexists. split; [reflexivity|]. split; [lia|]. split; [reflexivity|].
      destruct PC as [->|[-> _]]; [eexists; reflexivity|]. unfold read_pc_shape.
      assert (Z : size_of (dstack_shape (unwrap_shape [n0; n1])) = n0 * n1).
      { destruct n0 as [|[|n0]]; [lia| |cbn [unwrap_shape dstack_shape size_of fold_right]; lia]. cbn [unwrap_shape dstack_shape size_of fold_right]. lia. }
      rewrite Z, Nat.eqb_refl. destruct (1 <? n0 * n1); cbn [bind]; eexists; reflexivity. }
  destruct K as (ny & nx & dy & dx & -> & E & Q & p & PS).
  rewrite E, Nat.eqb_refl. cbn [bind]. unfold read, get_data. cbn [n_rows n_columns pattern_height pattern_width patterns elems h_pc_shape h_pcs].
  rewrite E. replace (ny * nx * (h * w) =? size_of [ny; nx; h; w]) with true by (symmetry; apply Nat.eqb_eq; cbn [size_of fold_right]; lia).
  cbn [bind]. rewrite PS. cbn [bind]. eexists. split; [reflexivity|]. cbn [l_data l_det squeeze elems shape]. split; [reflexivity|]. split; [exact Q|]. repeat split.
Qed.

(** So every unit axis is lost: a map with a single row becomes a line. *)
Theorem C29_unit_axes_refuted : forall s, well_formed s -> In 1 (nav_shape s) ->
  exists r, load_after_save s = Some r /\ length (shape (l_data r)) < length (shape (data s)).
Proof.
  intros s W I. destruct (C29_patterns_kept s W) as (r & E & _ & SH & _). exists r. split; [exact E|].
  rewrite SH. destruct W as (_ & _ & _ & _ & -> & _).
  assert (F : forall l, In 1 l -> length (squeeze_shape l) < length l).
  { clear. induction l as [|n l IH]; intros J; [destruct J|]. unfold squeeze_shape in *. cbn [filter].
    destruct (Nat.eqb_spec n 1) as [->|D]; cbn [negb length].
    - assert (G : forall (f : nat -> bool) l, length (filter f l) <= length l).
      { intros f l0. induction l0 as [|x l0 IHl]; cbn [filter length]; [lia|]. destruct (f x); cbn [length]; lia. }
      specialize (G (fun m => negb (m =? 1)) l). lia.
    - destruct J as [->|J]; [congruence|]. apply IH in J. lia. }
  apply F. apply in_or_app. now left.
Qed.
(** Patterns with a single row or column: there are more axes than dimensions. *)
Theorem C29_single_pattern_row_refuted : forall s, well_formed s -> Forall (fun n => 2 <= n) (nav_shape s) -> sy s = 1 \/ sx s = 1 ->
  exists r, load_after_save s = Some r /\ length (shape (l_data r)) < length (l_axes r).
Proof.
  intros s W N2 O. destruct (C29_patterns_kept s W) as (r & E & _ & SH & _). exists r. split; [exact E|]. rewrite SH.
  destruct W as (L & _ & _ & _ & _ & _ & _).
  assert (LA : length (l_axes r) = length (nav s) + 2).
  { revert E. unfold load_after_save, write.
    destruct (nav_shape_scale one (nav s)) as [[ny nx] [dy dx]] eqn:NS. destruct (_ =? _); [|discriminate]. cbn [bind].
    unfold read. destruct (get_data _); [|discriminate]. cbn [bind]. destruct (read_pc_shape _ _ _); [|discriminate]. cbn [bind]. intros [= <-].
    cbn [l_axes n_rows n_columns pattern_height pattern_width step_y step_x detector_pixel_size].
    unfold nav_shape in N2. destruct (nav s) as [|[[n0 m0] d0] [|[[n1 m1] d1] [|? ?]]]; [| | |cbn [length] in L; lia]; cbn [map fst] in N2.
    - cbn in NS. injection NS as <- <- <- <-. reflexivity.
    - apply Forall_cons_iff in N2 as [N0 _]. cbn [nav_shape_scale] in NS. destruct (String.eqb m0 "y"); injection NS as <- <- <- <-;
      unfold get_axes; replace (n0 =? 1) with false by (symmetry; apply Nat.eqb_neq; lia); cbn [negb Nat.eqb].
      + destruct (1 <? n0); reflexivity.
      + destruct (n0 <? 1); reflexivity.
    - apply Forall_cons_iff in N2 as [N0 N2]. apply Forall_cons_iff in N2 as [N1 _]. cbn [nav_shape_scale] in NS. injection NS as <- <- <- <-.
      unfold get_axes. replace (n0 =? 1) with false by (symmetry; apply Nat.eqb_neq; lia). replace (n1 =? 1) with false by (symmetry; apply Nat.eqb_neq; lia). reflexivity. }
  rewrite LA.
  assert (G : forall (l : list nat), length (squeeze_shape (l ++ [sy s; sx s])) < length l + 2).
  { induction l as [|x l IH]; cbn [app].
    - unfold squeeze_shape. cbn [filter length]. destruct O as [-> | ->]; [destruct (sx s =? 1)|destruct (sy s =? 1)]; cbn; lia.
    - unfold squeeze_shape in *. cbn [filter length]. destruct (negb (x =? 1)); cbn [length]; lia. }
  specialize (G (nav_shape s)). unfold nav_shape in G at 2. rewrite map_length in G. exact G.
Qed.
End C.

(** A map of 2 x 3 patterns of 2 x 2 pixels with PCs for all patterns, and one with a single row. *)
Definition example_detector (sh : list nat) (n : nat) : detector Z := Detector 70%Z 8%Z 5%Z 1%Z 2%Z 70%Z sh (map (fun i => (Z.of_nat i, 0, 1)%Z) (seq 0 n)).
Definition example_signal : signal Z :=
  Signal [(2, "y"%string, 3%Z); (3, "x"%string, 4%Z)] 2 2 1%Z (Nd [2; 3; 2; 2] (map Z.of_nat (seq 0 24))) (Some (Nd [2; 2] [1; 2; 3; 4]%Z)) (example_detector [2; 3] 6).
Example C29_case : well_formed example_signal /\ Forall (fun n => 2 <= n) (nav_shape example_signal) /\ background example_signal = Some (Nd [2; 2] [1; 2; 3; 4]%Z).
Proof. split; [|split; [repeat constructor|reflexivity]]. unfold well_formed. cbn. do 6 (split; [solve [lia | reflexivity | repeat constructor]|]). split; [right; split; [reflexivity|discriminate]|reflexivity]. Qed.
Definition example_row : signal Z := Signal [(1, "y"%string, 3%Z); (3, "x"%string, 4%Z)] 2 2 1%Z (Nd [1; 3; 2; 2] (map Z.of_nat (seq 0 12))) None (example_detector [1; 3] 3).
Example C29_case_row : well_formed example_row /\ In 1 (nav_shape example_row) /\ option_map (fun r => shape (l_data r)) (load_after_save 1%Z example_row) = Some [3; 2; 2].
Proof. split; [|split; [now left|reflexivity]]. unfold well_formed. cbn. do 6 (split; [solve [lia | reflexivity | repeat constructor]|]). split; [right; split; [reflexivity|discriminate]|reflexivity]. Qed.
Print Assumptions C29_round_trip_partial.
