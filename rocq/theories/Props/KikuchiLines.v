(** Geometrical simulation of Kikuchi lines (property C65). *)
From Coq Require Import List Arith ZArith Reals Lra Lia Psatz Bool.
From Verif Require Import Model.Detector Model.Rotations Model.Simulation Model.KikuchiLines Spec.Euler Spec.KikuchiBands Spec.DetectorGeometry
  Proofs.DetectorProofs Proofs.DetectorTilt Proofs.KikuchiLinesProofs.
Import ListNotations.
Local Open Scope R_scope.

(** ** Specification *)

(** A detector with PCs in front of it, as many as its navigation shape says. *)
Definition number (shape : list nat) : nat := fold_right Nat.mul 1%nat shape.
Definition usable (d : detector) : Prop :=
  valid d /\ Forall (fun p => 0 < pcz p) (pcs (d_pc d)) /\ length (pcs (d_pc d)) = number (nav_shape (d_pc d)) /\ pcs (d_pc d) <> [].
(** The PC of pattern i: the only one, or PC number i. *)
Definition pc_of (d : detector) (i : nat) (p : pc3) : Prop :=
  nth_error (pcs (d_pc d)) (if Nat.eqb (length (pcs (d_pc d))) 1 then 0 else i) = Some p.
(** The radius, in gnomonic coordinates, of the region of interest about the PC: the largest "r_max". *)
Definition radius (d : detector) (r : R) : Prop :=
  (exists p, In p (pcs (d_pc d)) /\ r = r_max d p) /\ forall p, In p (pcs (d_pc d)) -> r_max d p <= r.

(** The segment is the part inside this region of the trace of the lattice plane (hkl) on the detector. *)
Definition shows (base : mat) (d : detector) (q : quat) (r : R) (h : index) (s : segment) : Prop :=
  let '((x1, y1), (x2, y2)) := s in
  x1 * x1 + y1 * y1 = r * r /\ x2 * x2 + y2 * y2 = r * r /\
  forall x y, (on_trace base d q (IZR (i1 h)) (IZR (i2 h)) (IZR (i3 h)) x y /\ x * x + y * y <= r * r) <->
              exists t, 0 <= t <= 1 /\ x = (1 - t) * x1 + t * x2 /\ y = (1 - t) * y1 + t * y2.

(** The reciprocal lattice vector points to the detector's side. *)
Definition towards (base : mat) (d : detector) (q : quat) (h : index) : Prop :=
  exists g v, reciprocal_vector base (IZR (i1 h)) (IZR (i2 h)) (IZR (i3 h)) g /\ seen_at d q 0 0 v /\ 0 < dot3 g v.
(** The plane's trace passes through the region. *)
Definition crosses (base : mat) (d : detector) (q : quat) (r : R) (h : index) : Prop :=
  exists x y, on_trace base d q (IZR (i1 h)) (IZR (i2 h)) (IZR (i3 h)) x y /\ x * x + y * y < r * r.
Definition opposite (h : index) : index := Index (- i1 h) (- i2 h) (- i3 h).

(** ** Proofs *)

Lemma radius_fold d r : usable d -> radius d r -> fold_right Rmax 0 (map (r_max d) (pcs (d_pc d))) = r.
Proof.
  intros _ ((p & Hp & Er) & H). assert (P : forall p, 0 <= r_max d p) by (intros; apply sqrt_pos).
  apply Rle_antisym.
  - assert (0 <= r) by (rewrite Er; apply P). clear Hp Er. induction (pcs (d_pc d)) as [|a l IH]; simpl; [lra|].
    apply Rmax_lub; [apply H; simpl; auto|]. apply IH. intros; apply H; simpl; auto.
  - subst r. clear H. induction (pcs (d_pc d)) as [|a l IH]; [contradiction|]. simpl. destruct Hp as [->|Hp]; [apply Rmax_l|].
    eapply Rle_trans; [now apply IH|apply Rmax_r].
Qed.
Lemma radius_exists d : usable d -> exists r, radius d r.
Proof.
  intros (_ & _ & _ & H). unfold radius. induction (pcs (d_pc d)) as [|a l IH]; [contradiction|].
  destruct l as [|b l].
  - exists (r_max d a). split; [exists a; simpl; auto|]. intros p [<-|[]]. lra.
  - destruct IH as (r & (p & Hp & E) & M); [discriminate|]. destruct (Rle_dec (r_max d a) r).
    + exists r. split; [exists p; simpl in *; auto|]. intros p' [<-|Hp']; auto.
    + exists (r_max d a). split; [exists a; simpl; auto|]. intros p' [<-|Hp']; [lra|]. specialize (M p' Hp'). lra.
Qed.
Lemma r_max_pos d p : valid d -> 0 < pcz p -> 0 < r_max d p.
Proof.
  intros Hv Hz. destruct (KikuchiLinesProofs.spans d p Hv Hz) as [Sx _]. pose proof (aspect_pos d Hv) as Ha.
  assert (0 < aspect_ratio d / pcz p) by now apply Rdiv_lt_0_compat.
  unfold r_max. apply sqrt_lt_R0.
  set (c0 := x_min d p ^ 2 + y_min d p ^ 2). set (c1 := x_max d p ^ 2 + y_min d p ^ 2).
  destruct (rmax4_ge c0 c1 (x_max d p ^ 2 + y_max d p ^ 2) c0) as (A & B & _).
  assert (0 < c0 \/ 0 < c1).
  { unfold c0, c1. pose proof (pow2_ge_0 (x_min d p)). pose proof (pow2_ge_0 (x_max d p)). pose proof (pow2_ge_0 (y_min d p)).
    destruct (Req_dec (x_min d p) 0) as [E|E].
    - right. assert (0 < x_max d p) by lra. assert (0 < x_max d p ^ 2) by (apply pow_lt; lra). lra.
    - left. assert (0 < x_min d p ^ 2) by nra. lra. }
  fold c0 in A, B |- *. lra.
Qed.
Lemma radius_pos d r : usable d -> radius d r -> 0 < r.
Proof.
  intros (Hv & Hp & _) ((p & Hi & ->) & _). rewrite Forall_forall in Hp. apply r_max_pos; auto.
Qed.

(** The pattern's rotation and PC *)
Lemma on_detector_inv reduce base refl d shape rots s :
  on_detector reduce base refl d shape rots = Some s -> nav_shape (d_pc d) = [1%nat] \/ nav_shape (d_pc d) = shape.
Proof.
  unfold on_detector. destruct (list_eq_dec Nat.eq_dec (nav_shape (d_pc d)) [1%nat]); [auto|].
  destruct (list_eq_dec Nat.eq_dec (nav_shape (d_pc d)) shape); [auto|]. discriminate.
Qed.
Lemma views_at d shape rots i q : usable d -> length rots = number shape ->
  (nav_shape (d_pc d) = [1%nat] \/ nav_shape (d_pc d) = shape) -> nth_error rots i = Some q ->
  exists p, pc_of d i p /\ nth_error (views d rots) i = Some (q, p) /\ In p (pcs (d_pc d)).
Proof.
  intros (Hv & Hz & Hl & Hne) Hr Hs Hi.
  assert (C : nav_shape (d_pc d) = shape -> exists p, pc_of d i p /\ nth_error (combine rots (pcs (d_pc d))) i = Some (q, p) /\ In p (pcs (d_pc d))).
  { intros E. assert (L : length rots = length (pcs (d_pc d))) by congruence.
    assert (Lt : (i < length (pcs (d_pc d)))%nat) by (rewrite <- L; apply nth_error_Some; congruence).
    destruct (nth_error (pcs (d_pc d)) i) as [p|] eqn:Ep; [|apply nth_error_None in Ep; lia].
    exists p. split; [|split; [|now apply nth_error_In in Ep]].
    - unfold pc_of. destruct (Nat.eqb_spec (length (pcs (d_pc d))) 1) as [E1|]; [|exact Ep].
      replace i with 0%nat in Ep by lia. exact Ep.
    - clear - Hi Ep. revert Hi Ep. generalize (pcs (d_pc d)). revert i. induction rots as [|a l IH]; intros [|i] ps; simpl; try discriminate; destruct ps; simpl; try discriminate.
      + congruence.
      + apply IH. }
  unfold views. destruct Hs as [E|E].
  - rewrite E in *. simpl in Hl. destruct (pcs (d_pc d)) as [|p [|]] eqn:Ep; try discriminate. exists p. split; [|split; [|simpl; auto]].
    + unfold pc_of. rewrite Ep. reflexivity.
    + now rewrite nth_error_map, Hi.
  - destruct (C E) as (p & A & B & D).
    destruct (nav_shape (d_pc d)) as [|[|[|n]] [|m r]] eqn:En; try (exists p; auto; fail).
    (* navigation shape (1,) *)
    simpl in Hl. destruct (pcs (d_pc d)) as [|p0 [|]] eqn:Ep; try discriminate. exists p0. split; [|split; [|simpl; auto]].
    + unfold pc_of. rewrite Ep. reflexivity.
    + now rewrite nth_error_map, Hi.
Qed.

Lemma nth_error_combine {A B} (l : list A) (m : list B) i a b : nth_error l i = Some a -> nth_error m i = Some b -> nth_error (combine l m) i = Some (a, b).
Proof.
  revert m i. induction l as [|x l IH]; intros [|y m] [|i]; simpl; try discriminate; [congruence|apply IH].
Qed.
Lemma some_inj {A} (a b : A) : Some a = Some b -> a = b.
Proof. congruence. Qed.
(** What a simulation consists of *)
Section OneSimulation.
Context (reduce : index -> index) (base : mat) (refl : list index) (d : detector) (shape : list nat) (rots : list quat) (s : simulation).
Context (Hsim : on_detector reduce base refl d shape rots = Some s).
Context (Hd : usable d) (Hrots : length rots = number shape).

Lemma visible_eq : visible s = filter (fun h => existsb (fun q => rltb 0 (vz (hkl_d base d q h))) rots) refl.
Proof using Hsim. clear Hd Hrots. unfold on_detector in Hsim. destruct (_ && _)%bool; [discriminate|]. apply some_inj in Hsim. rewrite <- Hsim. reflexivity. Qed.
Lemma visible_in h : In h (visible s) <-> In h refl /\ exists q, In q rots /\ 0 < vz (hkl_d base d q h).
Proof using Hsim.
  rewrite visible_eq, filter_In, existsb_exists. split; intros (A & q & B & C); split; auto; exists q; split; auto; now apply rltb_spec.
Qed.
Lemma lines_at r i q : radius d r -> nth_error rots i = Some q ->
  exists p, pc_of d i p /\ In p (pcs (d_pc d)) /\
    nth_error (lines_gnomonic s) i = Some (map (fun h => line r (hkl_d base d q h)) (visible s)) /\
    nth_error (lines_pixel s) i = Some (map (fun h => line_pixels d p (line r (hkl_d base d q h))) (visible s)).
Proof using Hsim Hd Hrots.
  intros Hr Hi. destruct (views_at d shape rots i q Hd Hrots (on_detector_inv _ _ _ _ _ _ _ Hsim) Hi) as (p & Hp & Hv & Hin).
  exists p. split; [exact Hp|]. split; [exact Hin|].
  pose proof visible_eq as Ev. unfold on_detector in Hsim. destruct (_ && _)%bool; [discriminate|]. apply some_inj in Hsim. subst s.
  cbn [visible lines_gnomonic lines_pixel] in *. rewrite (radius_fold d r Hd Hr).
  set (ls := map _ (views d rots)).
  assert (E : nth_error ls i = Some (map (fun h => line r (hkl_d base d q h)) (filter (fun h => existsb (fun q => rltb 0 (vz (hkl_d base d q h))) rots) refl))).
  { unfold ls. now rewrite nth_error_map, Hv. }
  split; [exact E|]. rewrite nth_error_map.
  assert (C : nth_error (combine (views d rots) ls) i = Some ((q, p), map (fun h => line r (hkl_d base d q h)) (filter (fun h => existsb (fun q => rltb 0 (vz (hkl_d base d q h))) rots) refl))).
  { now apply nth_error_combine. }
  rewrite C. cbn [option_map fst snd]. now rewrite map_map.
Qed.
End OneSimulation.

Lemma exclude_nan_in {A} (l : list (option A)) a : In a (exclude_nan l) <-> In (Some a) l.
Proof.
  unfold exclude_nan. rewrite in_flat_map. split.
  - intros (o & H & K). destruct o as [x|]; [destruct K as [<-|[]]; exact H|contradiction].
  - intros H. exists (Some a). simpl. auto.
Qed.
Lemma exclude_nan_map {A B} (f : A -> B) l : exclude_nan (map (option_map f) l) = map f (exclude_nan l).
Proof. unfold exclude_nan. induction l as [|[a|] l IH]; simpl; congruence. Qed.

Lemma line_shows base d q r h s : proper_lattice base -> 0 < r -> line r (hkl_d base d q h) = Some s -> shows base d q r h s.
Proof.
  intros V Hr H. rewrite line_eq in H by exact Hr. destruct (Req_EM_T (rho (hkl_d base d q h)) 0) as [|Hrho]; [discriminate|].
  destruct (rltb (Rabs _) r) eqn:E; [|discriminate]. destruct (rltb (-1/100000) _); [|discriminate]. simpl in H. injection H as <-.
  apply rltb_spec in E. pose proof (chord_cut r _ Hr Hrho E) as C. destruct (chord r (hkl_d base d q h)) as [[x1 y1] [x2 y2]]. cbn [cut shows] in *.
  destruct C as (A & B & C). split; [exact A|]. split; [exact B|]. intros x y. rewrite on_trace_iff by exact V. apply C.
Qed.
Lemma hkl_d_dot base d q h x y :
  vx (hkl_d base d q h) * x + vy (hkl_d base d q h) * y + vz (hkl_d base d q h)
  = dot3 (row_times (row_of h) (recbase_t base)) (rotate_vector q (at_point d x y)).
Proof.
  rewrite hkl_d_eq. set (g := row_times (row_of h) (recbase_t base)).
  transitivity (dot3 (times (sample_to_detector d) (row_times g (to_matrix q))) (Vec x y 1)).
  - unfold dot3. cbn [vx vy vz]. ring.
  - rewrite times_adjoint', times_adjoint, times_to_matrix. reflexivity.
Qed.
Lemma towards_iff base d q h : proper_lattice base -> towards base d q h <-> 0 < vz (hkl_d base d q h).
Proof.
  intros V. pose proof (hkl_d_dot base d q h 0 0) as E. rewrite !Rmult_0_r, !Rplus_0_l in E. rewrite E. unfold towards. split.
  - intros (g & v & Hg & Hv & H). apply seen_at_eq in Hv. subst v.
    now rewrite (reciprocal_unique _ _ _ _ _ g V (recbase_reciprocal base h V) Hg).
  - intros H. eexists _, _. split; [now apply recbase_reciprocal|]. split; [now apply seen_at_eq|exact H].
Qed.
Lemma hkl_d_opposite base d q h : hkl_d base d q (opposite h) = let v := hkl_d base d q h in Vec (-1 * vx v) (-1 * vy v) (-1 * vz v).
Proof.
  rewrite !hkl_d_eq. cbv zeta. rewrite <- times_scale. cbv zeta.
  set (g := row_times (row_of h) (recbase_t base)).
  assert (E : row_times (row_of (opposite h)) (recbase_t base) = Vec (-1 * vx g) (-1 * vy g) (-1 * vz g)).
  { unfold g. rewrite <- row_times_scale. f_equal. unfold row_of, opposite. cbn [vx vy vz i1 i2 i3]. rewrite !opp_IZR. f_equal; ring. }
  rewrite E, row_times_scale. cbv zeta. now rewrite times_scale.
Qed.
Lemma on_trace_opposite base d q h x y : proper_lattice base ->
  on_trace base d q (IZR (i1 (opposite h))) (IZR (i2 (opposite h))) (IZR (i3 (opposite h))) x y <->
  on_trace base d q (IZR (i1 h)) (IZR (i2 h)) (IZR (i3 h)) x y.
Proof.
  intros V. rewrite !on_trace_iff by exact V. rewrite hkl_d_opposite. cbv zeta. cbn [vx vy vz]. split; intros; lra.
Qed.
Lemma shows_opposite base d q r h s : proper_lattice base -> shows base d q r (opposite h) s -> shows base d q r h s.
Proof.
  intros V. unfold shows. destruct s as [[x1 y1] [x2 y2]]. intros (A & B & C). split; [exact A|]. split; [exact B|].
  intros x y. rewrite <- C, on_trace_opposite by exact V. reflexivity.
Qed.
Lemma line_drawn base d q r h : proper_lattice base -> 0 < r -> 0 < vz (hkl_d base d q h) -> crosses base d q r h ->
  exists s, line r (hkl_d base d q h) = Some s.
Proof.
  intros V Hr Hz (x & y & T & D). apply on_trace_iff in T; [|exact V].
  assert (Hrho : rho (hkl_d base d q h) <> 0) by (eapply meets_rho; [exact T|lra]).
  exists (chord r (hkl_d base d q h)). rewrite line_eq by exact Hr. destruct (Req_EM_T _ 0); [contradiction|].
  rewrite (proj2 (rltb_spec _ _)) by (eapply meets_disc; eauto). rewrite (proj2 (rltb_spec _ _)) by lra. reflexivity.
Qed.

(** ** C65 *)

(** on_detector() refuses detectors that have neither one PC nor one for each pattern. *)
Theorem C65_refused_shapes reduce base refl d shape rots :
  on_detector reduce base refl d shape rots = None <-> nav_shape (d_pc d) <> [1%nat] /\ nav_shape (d_pc d) <> shape.
Proof.
  unfold on_detector. destruct (list_eq_dec Nat.eq_dec (nav_shape (d_pc d)) [1%nat]); cbn [negb andb]; [split; [discriminate|tauto]|].
  destruct (list_eq_dec Nat.eq_dec (nav_shape (d_pc d)) shape); cbn [negb]; [split; [discriminate|tauto]|]. tauto.
Qed.

(** Every line shows the part inside the region of the trace of a reflector, in the orientation of the pattern. *)
Theorem C65_lines_are_traces reduce base refl d shape rots s r i q :
  on_detector reduce base refl d shape rots = Some s -> usable d -> proper_lattice base -> length rots = number shape ->
  radius d r -> nth_error rots i = Some q ->
  exists ls, lines_coordinates s i Gnomonic = Some ls /\ forall seg, In seg ls -> exists h, In h refl /\ shows base d q r h seg.
Proof.
  intros Hs Hd V Hl Hr Hi. destruct (lines_at _ _ _ _ _ _ _ Hs Hd Hl r i q Hr Hi) as (p & Hp & Hin & E & _).
  unfold lines_coordinates. rewrite E. eexists. split; [reflexivity|]. intros seg H. apply exclude_nan_in in H.
  apply in_map_iff in H. destruct H as (h & H & Hh). exists h. split; [now apply (visible_in _ _ _ _ _ _ _ Hs) in Hh|].
  apply line_shows; auto. now apply radius_pos with d.
Qed.

(** Every reflector that points to the detector and whose trace passes through the region has its line. *)
Theorem C65_facing_traces_are_drawn reduce base refl d shape rots s r i q h :
  on_detector reduce base refl d shape rots = Some s -> usable d -> proper_lattice base -> length rots = number shape ->
  radius d r -> nth_error rots i = Some q -> In h refl -> towards base d q h -> crosses base d q r h ->
  exists ls seg, lines_coordinates s i Gnomonic = Some ls /\ In seg ls /\ shows base d q r h seg.
Proof.
  intros Hs Hd V Hl Hr Hi Hh Ht Hc. destruct (lines_at _ _ _ _ _ _ _ Hs Hd Hl r i q Hr Hi) as (p & Hp & Hin & E & _).
  assert (Hpos : 0 < r) by now apply radius_pos with d. apply towards_iff in Ht; [|exact V].
  destruct (line_drawn base d q r h V Hpos Ht Hc) as (seg & L).
  unfold lines_coordinates. rewrite E. eexists _, seg. split; [reflexivity|]. split; [|now apply line_shows].
  apply exclude_nan_in, in_map_iff. exists h. split; [exact L|].
  apply (visible_in _ _ _ _ _ _ _ Hs). split; [exact Hh|]. exists q. split; [now apply nth_error_In in Hi|exact Ht].
Qed.

(** With (-h -k -l) for every (hkl), as after ReciprocalLatticeVector.symmetrise(), this is every reflector
    whose trace does not pass exactly through the PC. *)
Theorem C65_traces_are_drawn_partial reduce base refl d shape rots s r i q h :
  on_detector reduce base refl d shape rots = Some s -> usable d -> proper_lattice base -> length rots = number shape ->
  radius d r -> nth_error rots i = Some q -> (forall g, In g refl -> In (opposite g) refl) ->
  In h refl -> ~ on_trace base d q (IZR (i1 h)) (IZR (i2 h)) (IZR (i3 h)) 0 0 -> crosses base d q r h ->
  exists ls seg, lines_coordinates s i Gnomonic = Some ls /\ In seg ls /\ shows base d q r h seg.
Proof.
  intros Hs Hd V Hl Hr Hi Ho Hh Hz Hc. rewrite on_trace_iff in Hz by exact V. rewrite !Rmult_0_r, !Rplus_0_l in Hz.
  destruct (Rtotal_order (vz (hkl_d base d q h)) 0) as [H|[H|H]]; [|contradiction|].
  - destruct (C65_facing_traces_are_drawn reduce base refl d shape rots s r i q (opposite h)) as (ls & seg & A & B & C); auto.
    + apply towards_iff; [exact V|]. rewrite hkl_d_opposite. cbn [vz]. lra.
    + destruct Hc as (x & y & T & D). exists x, y. split; [|exact D]. now apply on_trace_opposite.
    + exists ls, seg. split; [exact A|]. split; [exact B|]. now apply shows_opposite.
  - apply (C65_facing_traces_are_drawn reduce base refl d shape rots s r i q h); auto. now apply towards_iff.
Qed.

(** A point of the detector surface, in gnomonic coordinates *)
Definition on_surface (d : detector) (p : pc3) (x y : R) : Prop := x_min d p < x < x_max d p /\ y_min d p < y < y_max d p.

Lemma strictly_between a b x : a < x < b -> x ^ 2 < a ^ 2 \/ x ^ 2 < b ^ 2.
Proof. intros H. destruct (Rle_dec 0 x); [right|left]; nra. Qed.
Lemma surface_in_region d p x y : valid d -> 0 < pcz p -> (pcx p <= /2 \/ pcy p <= /2) -> on_surface d p x y ->
  x * x + y * y < r_max d p * r_max d p.
Proof.
  intros Hv Hz Hc (Hx & Hy). unfold r_max. cbv zeta.
  match goal with |- context [sqrt (Rmax (Rmax ?a ?b) (Rmax ?c ?e))] => pose proof (rmax4_ge a b c e) as HM end. cbv zeta in HM.
  rewrite sqrt_sqrt.
  2:{ destruct HM as (A & _). eapply Rle_trans; [|exact A]. pose proof (pow2_ge_0 (x_min d p)). pose proof (pow2_ge_0 (y_min d p)). lra. }
  set (m := Rmax _ _) in *. clearbody m. replace (x * x + y * y) with (x ^ 2 + y ^ 2) by ring.
  destruct (strictly_between _ _ _ Hx) as [Hx2|Hx2], (strictly_between _ _ _ Hy) as [Hy2|Hy2]; try lra.
  destruct Hc as [Hc|Hc].
  - pose proof (x_min_le d p Hv Hz Hc). lra.
  - pose proof (y_max_le d p Hz Hc). lra.
Qed.

(** Hence every trace on the detector surface is drawn if the PC is not to the lower right of the centre. *)
Theorem C65_traces_on_the_detector_are_drawn_partial reduce base refl d shape rots s r i q p h x y :
  on_detector reduce base refl d shape rots = Some s -> usable d -> proper_lattice base -> length rots = number shape ->
  radius d r -> nth_error rots i = Some q -> pc_of d i p -> (pcx p <= /2 \/ pcy p <= /2) ->
  (forall g, In g refl -> In (opposite g) refl) ->
  In h refl -> on_trace base d q (IZR (i1 h)) (IZR (i2 h)) (IZR (i3 h)) x y -> on_surface d p x y ->
  ~ on_trace base d q (IZR (i1 h)) (IZR (i2 h)) (IZR (i3 h)) 0 0 ->
  exists ls seg, lines_coordinates s i Gnomonic = Some ls /\ In seg ls /\ shows base d q r h seg.
Proof.
  intros Hs Hd V Hl Hr Hi Hp Hc Ho Hh Ht Hxy Hz.
  apply (C65_traces_are_drawn_partial reduce base refl d shape rots s r i q h); auto.
  exists x, y. split; [exact Ht|]. unfold pc_of in Hp. apply nth_error_In in Hp.
  assert (P : 0 < pcz p) by (destruct Hd as (_ & F & _); rewrite Forall_forall in F; auto).
  eapply Rlt_le_trans; [apply (surface_in_region d p); auto; apply Hd|].
  destruct Hr as (_ & M). specialize (M p Hp). assert (0 <= r_max d p) by apply sqrt_pos. nra.
Qed.

(** ** Pixel coordinates *)

(** Lines in pixels are the lines in gnomonic coordinates: the point right of the left edge and below the top
    edge of the detector, in microns, is at these fractions of the columns and rows, the first pixel being at the
    left or top edge, and the last one at the right or bottom edge. *)
Definition source (d : detector) (p : pc3) : position :=
  bruker_position (nrows d) (ncols d) (d_binning d) (d_px_size d) (pcx p) (pcy p) (pcz p).
Definition same_place (d : detector) (p : pc3) (gn px : point) : Prop :=
  exists right below,
    gn = (gnomonic_x (source d p) right, gnomonic_y (source d p) below) /\
    px = (right / width d * (ncols d - 1), below / height d * (nrows d - 1)).

Lemma pixel_place d p gn : valid d -> 0 < pcz p -> (1 < d_nx d)%Z -> (1 < d_ny d)%Z -> same_place d p gn (pixel d p gn).
Proof.
  intros Hv Hz Hx Hy. destruct gn as [x y]. destruct (valid_pos d Hv) as [Hr Hc]. assert (Hp : 0 < d_px_size d) by apply Hv. assert (Hb : 0 < d_binning d) by apply Hv.
  assert (1 < ncols d) by (unfold ncols; apply (IZR_lt 1); exact Hx). assert (1 < nrows d) by (unfold nrows; apply (IZR_lt 1); exact Hy).
  assert (0 < height d) by (unfold height; repeat apply Rmult_lt_0_compat; lra).
  exists ((x * pcz p * height d) + pcx p * width d), (pcy p * height d - y * pcz p * height d). split.
  - unfold gnomonic_x, gnomonic_y, source, bruker_position. cbn [right_of_left_edge below_top_edge distance]. unfold height, width in *. f_equal; field; repeat split; lra.
  - unfold pixel, x_scale, y_scale. destruct (Z.eqb_spec (d_nx d) 1); [lia|]. destruct (Z.eqb_spec (d_ny d) 1); [lia|].
    destruct (KikuchiLinesProofs.spans d p Hv Hz) as [-> ->]. cbn [fst snd]. unfold aspect_ratio, height, width in *. f_equal; field; repeat split; lra.
Qed.

Theorem C65_pixel_coordinates reduce base refl d shape rots s i q p :
  on_detector reduce base refl d shape rots = Some s -> usable d -> length rots = number shape ->
  (1 < d_nx d)%Z -> (1 < d_ny d)%Z -> nth_error rots i = Some q -> pc_of d i p ->
  exists gn px, lines_coordinates s i Gnomonic = Some gn /\ lines_coordinates s i InPixels = Some px /\
    Forall2 (fun a b => same_place d p (fst a) (fst b) /\ same_place d p (snd a) (snd b)) gn px.
Proof.
  intros Hs Hd Hl Hx Hy Hi Hp. destruct (radius_exists d Hd) as (r & Hr).
  destruct (lines_at _ _ _ _ _ _ _ Hs Hd Hl r i q Hr Hi) as (p' & Hp' & Hin & E1 & E2).
  assert (p' = p) by (unfold pc_of in *; congruence). subst p'.
  unfold lines_coordinates. rewrite E1, E2. eexists _, _. split; [reflexivity|]. split; [reflexivity|].
  assert (P : 0 < pcz p) by (destruct Hd as (_ & F & _); rewrite Forall_forall in F; auto).
  assert (Hv : valid d) by apply Hd.
  replace (map (fun h => line_pixels d p (line r (hkl_d base d q h))) (visible s))
    with (map (option_map (fun s : segment => (pixel d p (fst s), pixel d p (snd s)))) (map (fun h => line r (hkl_d base d q h)) (visible s)))
    by now rewrite map_map.
  rewrite exclude_nan_map. generalize (exclude_nan (map (fun h => line r (hkl_d base d q h)) (visible s))). intros l.
  induction l as [|a l IH]; constructor; [|exact IH]. cbn [fst snd]. split; now apply pixel_place.
Qed.
(** On the detector, this differs by at most half a pixel from coordinates in which pixels are squares about
    integers. *)
Theorem C65_pixel_coordinates_error d p gn px right below : valid d -> 0 < pcz p -> 
  same_place d p gn px -> gn = (gnomonic_x (source d p) right, gnomonic_y (source d p) below) ->
  0 <= right <= width d -> 0 <= below <= height d ->
  let pitch := d_px_size d * d_binning d in
  Rabs (fst px - (right / pitch - 1 / 2)) <= 1 / 2 /\ Rabs (snd px - (below / pitch - 1 / 2)) <= 1 / 2.
Proof.
  intros Hv Hz (right' & below' & -> & ->) E Hr Hb pitch. destruct (valid_pos d Hv) as [Hr1 Hc1]. assert (Hp : 0 < d_px_size d) by apply Hv. assert (Hbi : 0 < d_binning d) by apply Hv.
  assert (Hpi : 0 < pitch) by (unfold pitch; now apply Rmult_lt_0_compat).
  assert (Dpos : 0 < distance (source d p)) by (unfold source, bruker_position; cbn [distance]; repeat apply Rmult_lt_0_compat; lra).
  injection E as E1 E2. unfold gnomonic_x, gnomonic_y in E1, E2.
  assert (right' = right).
  { apply (f_equal (fun t => t * distance (source d p))) in E1. unfold Rdiv in E1. rewrite !Rmult_assoc, Rinv_l, !Rmult_1_r in E1 by lra. lra. }
  assert (below' = below).
  { apply (f_equal (fun t => t * distance (source d p))) in E2. unfold Rdiv in E2. rewrite !Rmult_assoc, Rinv_l, !Rmult_1_r in E2 by lra. lra. }
  subst right' below'. cbn [fst snd].
  assert (W : width d = ncols d * pitch) by (unfold width, pitch; ring). assert (H : height d = nrows d * pitch) by (unfold height, pitch; ring).
  assert (G : forall n t, 1 <= n -> 0 <= t <= n * pitch -> Rabs (t / (n * pitch) * (n - 1) - (t / pitch - 1 / 2)) <= 1 / 2).
  { intros n t Hn Ht. replace (t / (n * pitch) * (n - 1) - (t / pitch - 1 / 2)) with (1 / 2 - t / (n * pitch)) by (field; lra).
    assert (0 < n * pitch) by (apply Rmult_lt_0_compat; lra).
    assert (0 <= t / (n * pitch)) by (apply Rmult_le_pos; [lra|left; now apply Rinv_0_lt_compat]).
    assert (t / (n * pitch) <= 1) by (apply Rmult_le_reg_r with (n * pitch); auto; unfold Rdiv; rewrite Rmult_assoc, Rinv_l by lra; lra).
    apply Rabs_le. lra. }
  rewrite W, H in *. split; apply G; lra.
Qed.
(** The marker of the PC is where the lines have it. *)
Theorem C65_pc_marker d p : valid d -> 0 < pcz p -> pc_marker d p = pixel d p (0, 0).
Proof.
  intros Hv Hz. destruct (valid_pos d Hv) as [Hr Hc]. pose proof (aspect_pos d Hv) as Ha.
  unfold pc_marker, pixel, x_scale, y_scale. destruct (KikuchiLinesProofs.spans d p Hv Hz) as [-> ->]. cbn [fst snd].
  assert (1 <= d_nx d /\ 1 <= d_ny d)%Z as [H1 H2] by (split; apply Hv).
  f_equal.
  - destruct (Z.ltb_spec 1 (d_nx d)), (Z.eqb_spec (d_nx d) 1); try lia.
    + assert (1 < ncols d) by (unfold ncols; apply (IZR_lt 1); lia). field. repeat split; lra.
    + field. split; lra.
  - destruct (Z.ltb_spec 1 (d_ny d)), (Z.eqb_spec (d_ny d) 1); try lia.
    + assert (1 < nrows d) by (unfold nrows; apply (IZR_lt 1); lia). field. repeat split; lra.
    + field. lra.
Qed.
(** Markers: the lines shown at column x and row y of the map are those of this pattern. *)
Theorem C65_markers reduce base refl d nr nc rots s x y q :
  on_detector reduce base refl d [nr; nc] rots = Some s -> usable d -> length rots = number [nr; nc] -> (x < nc)%nat -> (y < nr)%nat ->
  nth_error rots (y * nc + x) = Some q ->
  lines_marker s nc x y = lines_coordinates s (y * nc + x) InPixels /\ lines_marker s nc x y <> None.
Proof.
  intros Hs Hd Hl Hx Hy Hi. split; [reflexivity|]. destruct (radius_exists d Hd) as (r & Hr).
  destruct (lines_at _ _ _ _ _ _ _ Hs Hd Hl r (y * nc + x) q Hr Hi) as (p & _ & _ & _ & E). unfold lines_marker, marker_index. rewrite E. discriminate.
Qed.

(** ** Where this fails *)

Definition cube : mat := Mat (Vec 1 0 0) (Vec 0 1 0) (Vec 0 0 1).
Definition straight (p : pc3) : detector := Det 60 60 1 1 0 0 0 0 (PCArray [1%nat] [p]).
Definition centre : pc3 := PC (1/2) (1/2) (1/2).
Definition corner : pc3 := PC (3/4) (3/4) (1/2).
Definition no_rotation : quat := Quat 1 0 0 0.

Lemma straight_usable p : 0 < pcz p -> usable (straight p).
Proof.
  intros H. split; [repeat split; cbn; lia || lra|]. split; [repeat constructor; exact H|]. split; [reflexivity|discriminate].
Qed.
Lemma cube_proper : proper_lattice cube.
Proof. unfold proper_lattice, cube, dot3, cross3. cbn [r0 r1 r2 vx vy vz]. lra. Qed.
Lemma straight_s2d p : sample_to_detector (straight p) = Mat (Vec 0 1 0) (Vec 0 0 1) (Vec 1 0 0).
Proof.
  unfold sample_to_detector. cbn [d_sample_tilt d_tilt d_azimuthal d_twist straight].
  replace (deg2rad 0) with 0 by (unfold deg2rad; ring). rewrite matrix_no_azimuthal_twist, Rminus_0_r, sin_0, cos_0, Ropp_0. reflexivity.
Qed.
Lemma recbase_cube : recbase_t cube = cube.
Proof. unfold recbase_t, over, volume, cross_rows, cube. cbn [r0 r1 r2 vx vy vz]. f_equal; f_equal; field. Qed.
Lemma row_times_cube v : row_times v cube = v.
Proof. destruct v as [x y z]. unfold row_times, cube. cbn [r0 r1 r2 vx vy vz]. f_equal; ring. Qed.
Lemma to_matrix_cube : to_matrix no_rotation = cube.
Proof. unfold to_matrix, no_rotation, cube. f_equal; f_equal; ring. Qed.
Lemma straight_hkl p h : hkl_d cube (straight p) no_rotation h = Vec (IZR (i2 h)) (IZR (i3 h)) (IZR (i1 h)).
Proof.
  rewrite hkl_d_eq, straight_s2d, recbase_cube, to_matrix_cube, !row_times_cube.
  unfold times, dot3, row_of. cbn [r0 r1 r2 vx vy vz]. f_equal; ring.
Qed.
Lemma straight_radius p : radius (straight p) (r_max (straight p) p).
Proof. split; [exists p; simpl; auto|]. intros p' [<-|[]]. lra. Qed.

(** No line is drawn for a trace exactly through the PC, although (hkl) and (-h -k -l) are both given. *)
Theorem C65_trace_through_pc_refuted : exists d q refl h s r, 
  on_detector (fun u => u) cube refl d [1%nat] [q] = Some s /\ usable d /\ radius d r /\ In h refl /\ In (opposite h) refl /\
  crosses cube d q r h /\ lines_coordinates s 0 Gnomonic = Some [].
Proof.
  set (h := Index 0 1 0). set (refl := [h; opposite h]).
  destruct (on_detector (fun u => u) cube refl (straight centre) [1%nat] [no_rotation]) as [s|] eqn:E.
  2:{ apply C65_refused_shapes in E. destruct E as [E _]. now contradiction E. }
  exists (straight centre), no_rotation, refl, h, s, (r_max (straight centre) centre).
  assert (U : usable (straight centre)) by (apply straight_usable; unfold centre; cbn; lra).
  assert (Rp : 0 < r_max (straight centre) centre) by (apply r_max_pos; [apply U|unfold centre; cbn; lra]).
  split; [exact E|]. split; [exact U|]. split; [apply straight_radius|]. split; [simpl; auto|]. split; [simpl; auto|]. split.
  - exists 0, 0. split; [apply on_trace_iff; [apply cube_proper|]|nra]. rewrite straight_hkl. cbn. lra.
  - destruct (lines_at _ _ _ _ _ _ _ E U eq_refl _ 0%nat no_rotation (straight_radius centre) eq_refl) as (p & _ & _ & L & _).
    unfold lines_coordinates. rewrite L, (visible_eq _ _ _ _ _ _ _ E). unfold refl. cbn [filter existsb].
    assert (Z : forall g, In g refl -> rltb 0 (vz (hkl_d cube (straight centre) no_rotation g)) = false).
    { intros g Hg. rewrite straight_hkl. unfold rltb. destruct (Rlt_dec _ _) as [H|]; [|reflexivity]. exfalso.
      destruct Hg as [<-|[<-|[]]]; cbn in H; lra. }
    rewrite !Z by (simpl; auto). reflexivity.
Qed.

(** A trace that passes only near the upper left corner is not drawn if the PC is to the lower right of the
    centre, because "r_max" leaves this corner out (C13). *)
Theorem C65_trace_in_corner_refuted : exists d q p refl h s x y,
  on_detector (fun u => u) cube refl d [1%nat] [q] = Some s /\ usable d /\ pc_of d 0 p /\ In h refl /\ towards cube d q h /\
  on_trace cube d q (IZR (i1 h)) (IZR (i2 h)) (IZR (i3 h)) x y /\ on_surface d p x y /\ lines_coordinates s 0 Gnomonic = Some [].
Proof.
  set (h := Index 5 2 (-2)). set (refl := [h]).
  destruct (on_detector (fun u => u) cube refl (straight corner) [1%nat] [no_rotation]) as [s|] eqn:E.
  2:{ apply C65_refused_shapes in E. destruct E as [E _]. now contradiction E. }
  exists (straight corner), no_rotation, corner, refl, h, s, (-5/4), (5/4).
  assert (U : usable (straight corner)) by (apply straight_usable; unfold corner; cbn; lra).
  assert (Rp : 0 < r_max (straight corner) corner) by (apply r_max_pos; [apply U|unfold corner; cbn; lra]).
  split; [exact E|]. split; [exact U|]. split; [reflexivity|]. split; [simpl; auto|].
  split; [apply towards_iff; [apply cube_proper|]; rewrite straight_hkl; cbn; lra|].
  split; [apply on_trace_iff; [apply cube_proper|]; rewrite straight_hkl; cbn; lra|].
  assert (Bx : x_min (straight corner) corner = -3/2 /\ x_max (straight corner) corner = 1/2 /\ y_min (straight corner) corner = -1/2 /\ y_max (straight corner) corner = 3/2).
  { unfold x_min, x_max, y_min, y_max, aspect_ratio, nrows, ncols, straight, corner. cbn [d_nx d_ny pcx pcy pcz]. repeat split; field. }
  split; [unfold on_surface; destruct Bx as (-> & -> & -> & ->); lra|].
  destruct (lines_at _ _ _ _ _ _ _ E U eq_refl _ 0%nat no_rotation (straight_radius corner) eq_refl) as (p & _ & _ & L & _).
  unfold lines_coordinates. rewrite L, (visible_eq _ _ _ _ _ _ _ E). unfold refl. cbn [filter existsb].
  assert (R2 : r_max (straight corner) corner * r_max (straight corner) corner = 5/2).
  { unfold r_max. destruct Bx as (-> & -> & -> & ->). cbv zeta.
    replace (Rmax (Rmax ((-3/2)^2 + (-1/2)^2) ((1/2)^2 + (-1/2)^2)) (Rmax ((1/2)^2 + (3/2)^2) ((-3/2)^2 + (-1/2)^2))) with (5/2).
    - apply sqrt_sqrt. lra.
    - rewrite (Rmax_left ((-3/2)^2 + (-1/2)^2)) by lra. rewrite (Rmax_left ((1/2)^2 + (3/2)^2)) by lra. rewrite Rmax_left by lra. lra. }
  match goal with |- context [if ?b then _ else _] => destruct b end; [|reflexivity].
  cbn [map]. rewrite line_eq by exact Rp. destruct (Req_EM_T _ 0); [reflexivity|].
  destruct (rltb (Rabs _) _) eqn:F; [|reflexivity]. exfalso. apply rltb_spec in F. rewrite straight_hkl in *. set (v := Vec _ _ _) in *.
  pose proof (rho_sq v) as S. pose proof (rho_nonneg v) as Hn. unfold v in S at 3 4 5 6. cbn [vx vy vz i1 i2 i3 h] in S. unfold v in F at 1. cbn [vz i1 h] in F.
  assert (P : 0 < rho v) by lra.
  unfold Rdiv in F. rewrite Rabs_mult, (Rabs_right 5), (Rabs_right (/ rho v)) in F by (try lra; left; now apply Rinv_0_lt_compat).
  apply (Rmult_lt_compat_r (rho v)) in F; [|exact P]. rewrite Rmult_assoc, Rinv_l, Rmult_1_r in F by lra.
  set (m := r_max (straight corner) corner) in *. assert (25 < (m * m) * (rho v * rho v)) by nra. rewrite R2, S in H. lra.
Qed.

(** ** The hypotheses are satisfiable *)

(** (1 1 0) and its opposite, PC in the middle: the hypotheses of all theorems on lines are met. *)
Example line_example : exists s r, let refl := [Index 1 1 0; Index (-1) (-1) 0] in let d := straight centre in
  on_detector (fun u => u) cube refl d [1%nat] [no_rotation] = Some s /\ usable d /\ proper_lattice cube /\ radius d r /\
  pc_of d 0 centre /\ pcx centre <= /2 /\ (forall g, In g refl -> In (opposite g) refl) /\
  towards cube d no_rotation (Index 1 1 0) /\ crosses cube d no_rotation r (Index 1 1 0) /\ on_surface d centre (-1 / 2) 0 /\
  on_trace cube d no_rotation (IZR 2) (IZR 4) (IZR 0) (-1 / 2) 0 /\
  ~ on_trace cube d no_rotation (IZR 1) (IZR 1) (IZR 0) 0 0.
Proof.
  destruct (on_detector (fun u => u) cube [Index 1 1 0; Index (-1) (-1) 0] (straight centre) [1%nat] [no_rotation]) as [s|] eqn:E.
  2:{ apply C65_refused_shapes in E. destruct E as [E _]. now contradiction E. }
  exists s, (r_max (straight centre) centre). cbv zeta.
  assert (U : usable (straight centre)) by (apply straight_usable; unfold centre; cbn; lra).
  assert (Bx : x_min (straight centre) centre = -1 /\ x_max (straight centre) centre = 1 /\ y_min (straight centre) centre = -1 /\ y_max (straight centre) centre = 1).
  { unfold x_min, x_max, y_min, y_max, aspect_ratio, nrows, ncols, straight, centre. cbn [d_nx d_ny pcx pcy pcz]. repeat split; field. }
  assert (R2 : r_max (straight centre) centre * r_max (straight centre) centre = 2).
  { unfold r_max. destruct Bx as (-> & -> & -> & ->). cbv zeta.
    replace ((-1)^2 + (-1)^2) with 2 by ring. replace (1^2 + (-1)^2) with 2 by ring. replace (1^2 + 1^2) with 2 by ring. rewrite !Rmax_left by lra. apply sqrt_sqrt. lra. }
  split; [exact E|]. split; [exact U|]. split; [apply cube_proper|]. split; [apply straight_radius|]. split; [reflexivity|].
  split; [cbn; lra|]. split; [intros g [<-|[<-|[]]]; simpl; auto|].
  split; [apply towards_iff; [apply cube_proper|]; rewrite straight_hkl; cbn; lra|].
  split; [exists (-1), 0; rewrite R2; split; [apply (on_trace_iff _ _ _ (Index 1 1 0)); [apply cube_proper|]; rewrite straight_hkl; cbn; lra|lra]|].
  split; [unfold on_surface; destruct Bx as (-> & -> & -> & ->); lra|].
  split; [apply (on_trace_iff _ _ _ (Index 2 4 0)); [apply cube_proper|]; rewrite straight_hkl; cbn; lra|].
  intros H. apply (on_trace_iff _ _ _ (Index 1 1 0)) in H; [|apply cube_proper]. rewrite straight_hkl in H. cbn in H. lra.
Qed.
Print Assumptions C65_traces_are_drawn_partial.
