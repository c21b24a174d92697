(** Exactness of the fit of a plane to projection centers. *)
From Coq Require Import List Arith ZArith Reals Lra Lia Psatz Permutation.
From Verif Require Import Model.Detector Model.Rotations Model.PlaneFit.
From Verif Require Import Spec.PlaneSpec Proofs.PlaneFitProofs Proofs.HomographyProofs.
Import ListNotations.
Local Open Scope R_scope.

(** ** Trimmed means of symmetric points *)

Lemma column_symmetric : forall (f : pc3 -> R) c l,
  l <> [] -> (forall p, f (reflected c p) = 2 * f (pc_of c) - f p) -> Permutation (map (reflected c) l) l ->
  trim_mean (map (fun p => f p - meanR (map f l)) l) = 0.
Proof.
  intros f c l NE F P.
  assert (M : meanR (map f l) = f (pc_of c)).
  { assert (E : meanR (map f l) = 2 * f (pc_of c) - meanR (map f l)).
    { transitivity (meanR (map f (map (reflected c) l))); [apply meanR_perm, Permutation_map, Permutation_sym, P|].
      rewrite map_map. rewrite (map_ext (fun x => f (reflected c x)) (fun p => (2 * f (pc_of c) - f p)) F).
      pose proof (length_pos l NE) as L. unfold meanR. rewrite !map_length.
      pose proof (sumR_lin (fun _ => f (pc_of c)) f 2 (-1) l) as S. rewrite sumR_const in S.
      replace (sumR (map (fun x => 2 * f (pc_of c) - f x) l)) with (sumR (map (fun x => 2 * f (pc_of c) + -1 * f x) l))
        by (f_equal; apply map_ext; intro; ring).
      rewrite S. field. assumption. }
    lra. }
  apply trim_mean_symmetric. rewrite M, map_map.
  rewrite (map_ext (fun x => - (f x - f (pc_of c))) (fun x => f (reflected c x) - f (pc_of c))) by (intro; rewrite F; ring).
  rewrite <- (map_map (reflected c) (fun x => f x - f (pc_of c))). apply Permutation_map. exact P.
Qed.
Lemma trim_centered_symmetric : forall l, l <> [] -> symmetric l -> trim_mean3 (centered (map vec_of l)) = Vec 0 0 0.
Proof.
  intros l NE (c & P). unfold trim_mean3, centered, mean3. rewrite !map_map. cbn.
  f_equal; [apply (column_symmetric pcx c)|apply (column_symmetric pcy c)|apply (column_symmetric pcz c)]; auto.
Qed.

(** ** The fitted plane *)

Lemma spread_length : forall l, spread l -> (3 <= length l)%nat.
Proof.
  intros l (p & q & r & Hp & Hq & Hr & C).
  assert (N : NoDup [p; q; r]).
  { repeat constructor; cbn; try tauto.
    - intros [E|[E|[]]]; subst; apply C; destruct p as [x y z]; unfold cross, minus, point; cbn; f_equal; ring.
    - intros [E|[]]; subst; apply C; destruct p as [x y z], q as [x' y' z']; unfold cross, minus, point; cbn; f_equal; ring. }
  change 3%nat with (length [p; q; r]). apply (NoDup_incl_length N). intros x [<-|[<-|[<-|[]]]]; assumption.
Qed.

Lemma unit_neg : forall n, unit_length n -> unit_length (vneg n).
Proof. intros [x y z] H. unfold unit_length, dot, vneg in *. cbn in *. lra. Qed.
Lemma dot_neg : forall n v, dot (vneg n) v = - dot n v.
Proof. intros [x y z] [a b c]. unfold dot, vneg. cbn. ring. Qed.
Lemma neg_neg : forall n, vneg (vneg n) = n.
Proof. intros [x y z]. unfold vneg. cbn. f_equal; ring. Qed.

Lemma hyperplane_facts : forall svd n l,
  is_svd svd -> in_plane n l -> spread l -> dot n (trim_mean3 (centered (map vec_of l))) = 0 ->
  exists N h, (N = n \/ N = vneg n) /\ 0 <= vz N /\
    fit_hyperplane svd (centered (map vec_of l)) = Some h /\
    h_xtilt h = acos (vz N) /\ h_ztilt h = PI / 2 - atan2 (vy N) (vx N) /\
    tilted_normal (h_xtilt h) (h_ztilt h) = N /\
    rotate_vector (h_rot h) (Vec 0 0 1) = N /\ qnorm (h_rot h) = 1 /\ h_mean h = trim_mean3 (centered (map vec_of l)).
Proof.
  intros svd n l HS HP HR HT.
  assert (L : (3 <= length (trimmed (centered (map vec_of l))))%nat).
  { unfold trimmed, centered. rewrite !map_length. apply spread_length. exact HR. }
  specialize (HS _ L). pose proof (direction_found n l _ HP HR HT HS) as D.
  destruct HP as (Hn & _).
  set (v := svd (trimmed (centered (map vec_of l)))) in *.
  destruct HS as (Hv & _).
  set (N := sample_normal v).
  assert (EN : N = if Rlt_dec (vz v) 0 then vneg v else v) by (apply sample_normal_unit; exact Hv).
  assert (UN : unit_length N) by (rewrite EN; destruct (Rlt_dec (vz v) 0); [apply unit_neg|]; exact Hv).
  pose proof (tilted_normal_inverse N UN) as TN.
  exists N. eexists. split; [|split; [|split; [|split; [|split; [|split; [|split; [|split]]]]]]].
  - rewrite EN. destruct (Rlt_dec (vz v) 0); destruct D as [->| ->]; rewrite ?neg_neg; auto.
  - rewrite EN. destruct (Rlt_dec (vz v) 0); cbn; lra.
  - unfold fit_hyperplane. replace (length (centered (map vec_of l)) <? 3)%nat with false.
    + fold v. fold N. reflexivity.
    + symmetry. apply Nat.ltb_ge. unfold trimmed in L. rewrite map_length in L. exact L.
  - reflexivity.
  - reflexivity.
  - cbn [h_xtilt h_ztilt]. exact TN.
  - cbn [h_rot]. rewrite rotate_mul, rotate_x, rotate_z. exact TN.
  - cbn [h_rot]. rewrite qnorm_mul, !qnorm_axis; [ring|..]; unfold unit_length, dot; cbn; ring.
  - reflexivity.
Qed.

(** ** Coordinates in the plane *)

Lemma rotate_sub : forall q u v, rotate_vector q (vsub u v) = vsub (rotate_vector q u) (rotate_vector q v).
Proof. intros [a b c d] [x y z] [x' y' z']. unfold vsub. cbn. f_equal; ring. Qed.
Lemma rotate_cross : forall q u v, qnorm q = 1 ->
  cross (rotate_vector q u) (rotate_vector q v) = rotate_vector q (cross u v).
Proof.
  intros [a b c d] [x y z] [x' y' z'] H. unfold qnorm in H. cbn in H. unfold cross. cbn.
  assert (E : forall s t, s = t * (a * a + b * b + c * c + d * d) -> s = t) by (intros s t ->; rewrite H; ring).
  f_equal; apply E; ring.
Qed.
Lemma qnorm_inv : forall q, qnorm (qinv q) = qnorm q.
Proof. intros [a b c d]. unfold qnorm, qinv. cbn. ring. Qed.

(** the third coordinate of a vector perpendicular to the normal is 0 *)
Lemma third_zero : forall q N v, qnorm q = 1 -> rotate_vector q (Vec 0 0 1) = N -> dot N v = 0 ->
  vz (rotate_vector (qinv q) v) = 0.
Proof.
  intros q N v Q <- H.
  replace (vz (rotate_vector (qinv q) v)) with (dot (Vec 0 0 1) (rotate_vector (qinv q) v)) by (unfold dot; cbn; ring).
  rewrite <- (rotate_dot q _ _ Q), rotate_inv_r by exact Q. exact H.
Qed.
Lemma back_coordinates : forall h N p, qnorm (h_rot h) = 1 -> rotate_vector (h_rot h) (Vec 0 0 1) = N ->
  dot N (vsub p (h_mean h)) = 0 -> back h (plane_coordinates h p) = p.
Proof.
  intros h N p Q R D. unfold back, plane_coordinates. cbn [fst snd].
  pose proof (third_zero _ _ _ Q R D) as Z.
  set (v := rotate_vector (qinv (h_rot h)) (vsub p (h_mean h))) in *.
  replace (Vec (vx v) (vy v) 0) with v by (destruct v; cbn in *; subst; reflexivity).
  unfold v. rewrite rotate_inv_r by exact Q. destruct p, (h_mean h). unfold vadd, vsub. cbn. f_equal; ring.
Qed.

(** the transformation to the coordinates in the plane, composed with [t] *)
Definition composed (h : hyperplane) (avg o u w : vec) (t : mat) : mat :=
  let f := rotate_vector (qinv (h_rot h)) in
  let o' := f (vsub (vsub o avg) (h_mean h)) in
  let row (g : vec -> R) := plus (scaled (g (f u)) (r0 t)) (plus (scaled (g (f w)) (r1 t)) (scaled (g o') (r2 t))) in
  Mat (row vx) (row vy) (r2 t).

Lemma composed_det : forall h avg o u w t,
  det3 (composed h avg o u w t) =
  vz (cross (rotate_vector (qinv (h_rot h)) u) (rotate_vector (qinv (h_rot h)) w)) * det3 t.
Proof.
  intros h avg o u w t. unfold composed.
  generalize (rotate_vector (qinv (h_rot h)) u) (rotate_vector (qinv (h_rot h)) w)
    (rotate_vector (qinv (h_rot h)) (vsub (vsub o avg) (h_mean h))).
  intros [a b c] [d e f] [g i j]. destruct t as [[t1 t2 t3] [t4 t5 t6] [t7 t8 t9]].
  unfold det3, dot, cross, plus, scaled. cbn. ring.
Qed.
Lemma composed_sends : forall h avg o u w t i b, sends t i b ->
  sends (composed h avg o u w t) i
    (plane_coordinates h (vsub (plus o (plus (scaled (fst b) u) (scaled (snd b) w))) avg)).
Proof.
  intros h avg o u w t i b (W & X & Y). unfold sends. change (Vec (fst i) (snd i) 1) with (hom i) in *.
  set (H := hom i) in *. unfold composed. cbn [r0 r1 r2]. split; [exact W|].
  unfold plane_coordinates. cbn [fst snd]. set (q := qinv (h_rot h)).
  assert (L : rotate_vector q (vsub (vsub (plus o (plus (scaled (fst b) u) (scaled (snd b) w))) avg) (h_mean h)) =
    plus (rotate_vector q (vsub (vsub o avg) (h_mean h))) (plus (scaled (fst b) (rotate_vector q u)) (scaled (snd b) (rotate_vector q w)))).
  { generalize (fst b) (snd b). intros s r. destruct q as [a1 a2 a3 a4], o, u, w, avg, (h_mean h). unfold plus, scaled, vsub. cbn. f_equal; ring. }
  rewrite L. clear L.
  generalize (rotate_vector q u) (rotate_vector q w) (rotate_vector q (vsub (vsub o avg) (h_mean h))). intros U V O.
  assert (D : forall g : vec -> R, dot (plus (scaled (g U) (r0 t)) (plus (scaled (g V) (r1 t)) (scaled (g O) (r2 t)))) H
    = g U * dot (r0 t) H + (g V * dot (r1 t) H + g O * dot (r2 t) H)).
  { intro g. unfold dot, plus, scaled. cbn. ring. }
  rewrite (D vx), (D vy). rewrite <- X, <- Y. unfold plus, scaled. cbn. split; ring.
Qed.

(** ** The fit *)

Definition balanced (l : list pc3) : Prop := (length l < 10)%nat \/ symmetric l.
Lemma balanced_trim : forall l, l <> [] -> balanced l -> trim_mean3 (centered (map vec_of l)) = Vec 0 0 0.
Proof.
  intros l NE [H|H]; [|apply trim_centered_symmetric; assumption].
  apply trim_centered_few. rewrite map_length. destruct l; [congruence|cbn in *; lia].
Qed.

Lemma nonzero_square : forall k, k <> Vec 0 0 0 -> 0 < dot k k.
Proof.
  intros [x y z] H. unfold dot. cbn.
  assert (D : 0 <= x * x + y * y + z * z) by nra. destruct D as [D|D]; [exact D|]. exfalso. apply H. f_equal; nra.
Qed.

Definition unit_of (k : vec) : vec := scaled (/ sqrt (dot k k)) k.
Lemma unit_of_unit : forall k, k <> Vec 0 0 0 -> unit_length (unit_of k).
Proof.
  intros k H. pose proof (nonzero_square k H) as P. unfold unit_length, unit_of.
  assert (S : sqrt (dot k k) <> 0) by (apply Rgt_not_eq, sqrt_lt_R0, P).
  transitivity (/ sqrt (dot k k) * / sqrt (dot k k) * dot k k).
  - generalize (/ sqrt (dot k k)). intro s. destruct k. unfold dot, scaled. cbn. ring.
  - replace (dot k k) with (sqrt (dot k k) * sqrt (dot k k)) at 3 by (apply sqrt_sqrt; lra). field. exact S.
Qed.
Lemma unit_of_perp : forall k v, dot k v = 0 -> dot (unit_of k) v = 0.
Proof.
  intros k v H. unfold unit_of. generalize (/ sqrt (dot k k)). intro s.
  transitivity (s * dot k v); [destruct k, v; unfold dot, scaled; cbn; ring|]. rewrite H. ring.
Qed.
Lemma cross_perp_l : forall u w, dot (cross u w) u = 0.
Proof. intros [a b c] [x y z]. unfold dot, cross. cbn. ring. Qed.
Lemma cross_perp_r : forall u w, dot (cross u w) w = 0.
Proof. intros [a b c] [x y z]. unfold dot, cross. cbn. ring. Qed.

Lemma dot_plus : forall n u v, dot n (plus u v) = dot n u + dot n v.
Proof. intros [a b c] [x y z] [x' y' z']. unfold dot. cbn. ring. Qed.
Lemma dot_scaled : forall n s v, dot n (scaled s v) = s * dot n v.
Proof. intros [a b c] s [x y z]. unfold dot. cbn. ring. Qed.

Lemma image_in_plane : forall t o u w idx l, cross u w <> Vec 0 0 0 -> Forall2 (image_of t o u w) idx l ->
  in_plane (unit_of (cross u w)) l.
Proof.
  intros t o u w idx l C F. split; [apply unit_of_unit; exact C|].
  exists (dot (unit_of (cross u w)) o). intros p Hp.
  assert (E : exists i, image_of t o u w i p).
  { clear - F Hp. induction F; [destruct Hp|]. destruct Hp as [<-|Hp]; eauto. }
  destruct E as (i & b & _ & ->). rewrite !dot_plus, !dot_scaled.
  rewrite (unit_of_perp _ u (cross_perp_l u w)), (unit_of_perp _ w (cross_perp_r u w)). ring.
Qed.

Lemma cross_span : forall o u w b1 b2 b3,
  cross (minus (plus o (plus (scaled (fst b2) u) (scaled (snd b2) w))) (plus o (plus (scaled (fst b1) u) (scaled (snd b1) w))))
        (minus (plus o (plus (scaled (fst b3) u) (scaled (snd b3) w))) (plus o (plus (scaled (fst b1) u) (scaled (snd b1) w))))
  = scaled ((fst b2 - fst b1) * (snd b3 - snd b1) - (fst b3 - fst b1) * (snd b2 - snd b1)) (cross u w).
Proof.
  intros [o1 o2 o3] [u1 u2 u3] [w1 w2 w3] [a b] [c d] [e f]. unfold cross, minus, plus, scaled. cbn. f_equal; ring.
Qed.

Lemma image_spread : forall t o u w idx l, det3 t <> 0 -> cross u w <> Vec 0 0 0 -> quadrangle idx ->
  Forall2 (image_of t o u w) idx l -> spread l.
Proof.
  intros t o u w idx l D C (a & b & c & _ & Ha & Hb & Hc & _ & N & _) F.
  assert (P : forall i, In i idx -> exists p, In p l /\ image_of t o u w i p).
  { clear - F. induction F as [|i p idx l H F IH]; intros j Hj; [destruct Hj|]. destruct Hj as [<-|Hj].
    - exists p. split; [left; reflexivity|exact H].
    - destruct (IH j Hj) as (r & Hr & Hi). exists r. split; [right|]; assumption. }
  destruct (P a Ha) as (p & Hp & b1 & S1 & E1). destruct (P b Hb) as (q & Hq & b2 & S2 & E2).
  destruct (P c Hc) as (r & Hr & b3 & S3 & E3).
  exists p, q, r. repeat (split; [assumption|]). rewrite E1, E2, E3, cross_span. intro Z.
  pose proof (image_not_on_a_line t a b c b1 b2 b3 D N S1 S2 S3) as NL. unfold not_on_a_line in NL.
  apply C. destruct (cross u w) as [x y z]. unfold scaled in Z. cbn in Z. injection Z as Z1 Z2 Z3.
  f_equal; [apply Rmult_integral in Z1; destruct Z1|apply Rmult_integral in Z2; destruct Z2|apply Rmult_integral in Z3; destruct Z3];
    (contradiction || assumption).
Qed.

Lemma all_some_map : forall {A B} (f : A -> option B) l r, map f l = map Some r -> all_some (map f l) = Some r.
Proof.
  intros A B f l r ->. induction r as [|x r IH]; [reflexivity|]. cbn. rewrite IH. reflexivity.
Qed.
Lemma Forall2_map_eq : forall {A B C} (f : A -> C) (g : B -> C) (P : A -> B -> Prop) l r,
  Forall2 P l r -> (forall a b, P a b -> f a = g b) -> map f l = map g r.
Proof. intros A B C f g P l r F E. induction F; cbn; [reflexivity|]. f_equal; auto. Qed.
Lemma Forall2_map_r : forall {A B C} (P : A -> C -> Prop) (Q : A -> B -> Prop) (g : B -> C) l r,
  Forall2 Q l r -> (forall a b, In b r -> Q a b -> P a (g b)) -> Forall2 P l (map g r).
Proof.
  intros A B C P Q g l r F. induction F as [|a b l r H F IH]; intro E; cbn; constructor.
  - apply E; [left; reflexivity|exact H].
  - apply IH. intros; apply E; [right|]; assumption.
Qed.

Lemma projective_fit_exact : forall svd estimate l idx map_idx map_pcs t o u w,
  is_svd svd -> is_estimate estimate ->
  det3 t <> 0 -> cross u w <> Vec 0 0 0 -> quadrangle idx -> balanced l ->
  Forall2 (image_of t o u w) idx l -> Forall2 (image_of t o u w) map_idx map_pcs ->
  ~ (forall p q, In p l -> In q l -> pcz p = pcz q) ->
  fit_plane_to_pc svd estimate l idx map_idx None = Some (l, map_pcs, x_tilt l).
Proof.
  intros svd estimate l idx map_idx map_pcs t o u w HS HE D C HQ HB F FM HZ.
  pose proof (image_in_plane t o u w idx l C F) as HP.
  pose proof (image_spread t o u w idx l D C HQ F) as HR.
  assert (NE : l <> []) by (intros ->; apply spread_length in HR; cbn in HR; lia).
  pose proof (balanced_trim l NE HB) as HT.
  assert (T0 : dot (unit_of (cross u w)) (trim_mean3 (centered (map vec_of l))) = 0) by (rewrite HT; unfold dot; cbn; ring).
  destruct (hyperplane_facts svd _ l HS HP HR T0) as (N & h & EN & _ & EF & _ & _ & _ & ER & EQ & EM).
  set (avg := mean3 (map vec_of l)) in *.
  assert (PU : dot N u = 0 /\ dot N w = 0).
  { destruct EN as [-> | ->]; rewrite ?dot_neg, (unit_of_perp _ u (cross_perp_l u w)), (unit_of_perp _ w (cross_perp_r u w)); lra. }
  (* points of the plane *)
  assert (IP : forall i p, image_of t o u w i p -> dot N (vsub (vsub (point p) avg) (h_mean h)) = 0).
  { intros i p (b & _ & Ep). rewrite EM, HT.
    assert (K : dot N (point p) = dot N o).
    { rewrite Ep, !dot_plus, !dot_scaled. destruct PU as [-> ->]. ring. }
    assert (KA : dot N avg = dot N o).
    { unfold avg. rewrite dot_mean by (destruct l; [congruence|discriminate]).
      apply meanR_const; [destruct l; [congruence|discriminate]|].
      intros x Hx. rewrite map_map in Hx. apply in_map_iff in Hx. destruct Hx as (s & <- & Hs).
      destruct HP as (_ & c & Hc).
      assert (exists j, image_of t o u w j s) as (j & bb & _ & Es).
      { clear - F Hs. induction F; [destruct Hs|]. destruct Hs as [<-|Hs]; eauto. }
      rewrite vec_of_point, Es, !dot_plus, !dot_scaled. destruct PU as [-> ->]. ring. }
    rewrite !vsub_minus, !dot_minus, K, KA. unfold dot. cbn. ring. }
  set (t' := composed h avg o u w t).
  assert (Dt' : det3 t' <> 0).
  { unfold t'. rewrite composed_det. apply Rmult_integral_contrapositive. split; [|exact D].
    intro Z. apply C.
    assert (Z1 : vz (rotate_vector (qinv (h_rot h)) u) = 0) by (apply third_zero with N; tauto).
    assert (Z2 : vz (rotate_vector (qinv (h_rot h)) w) = 0) by (apply third_zero with N; tauto).
    assert (X : cross (rotate_vector (qinv (h_rot h)) u) (rotate_vector (qinv (h_rot h)) w) = Vec 0 0 0).
    { revert Z Z1 Z2. generalize (rotate_vector (qinv (h_rot h)) u) (rotate_vector (qinv (h_rot h)) w).
      intros [a b c] [x y z]. unfold cross. cbn. intros Z -> ->. f_equal; [ring|ring|exact Z]. }
    rewrite rotate_cross in X by (rewrite qnorm_inv; exact EQ).
    rewrite <- (rotate_inv_r (h_rot h) (cross u w) EQ), X. destruct (h_rot h). cbn. f_equal; ring. }
  assert (SF : Forall2 (sends t') idx (map (plane_coordinates h) (centered (map vec_of l)))).
  { unfold centered. rewrite !map_map. fold avg.
    apply (Forall2_map_r (sends t') (image_of t o u w) (fun x => plane_coordinates h (vsub (vec_of x) avg)) idx l F).
    intros i p _ (b & Sb & Ep). rewrite vec_of_point, Ep. apply composed_sends. exact Sb. }
  assert (LE : length idx = length (map (plane_coordinates h) (centered (map vec_of l)))).
  { clear - SF. induction SF; cbn; congruence. }
  pose proof (HE _ _ t' LE HQ Dt' SF) as SM.
  set (m := estimate idx (map (plane_coordinates h) (centered (map vec_of l)))) in *.
  destruct (determined _ _ m t' HQ Dt' SM SF) as (k & Hk & HM).
  assert (FIT : forall i p, image_of t o u w i p -> option_map (back h) (project m i) = Some (vsub (point p) avg)).
  { intros i p Hi. pose proof (IP i p Hi) as I. destruct Hi as (b & Sb & Ep).
    rewrite (sends_project m i _ (scaled_sends k m t' i _ Hk HM (composed_sends h avg o u w t i b Sb))).
    cbn. f_equal. rewrite <- Ep. apply back_coordinates with N; assumption. }
  unfold fit_plane_to_pc. cbn iota beta. unfold fit_pc_projective. fold avg.
  rewrite EF. fold m.
  rewrite (all_some_map _ idx (map (fun p => vsub (point p) avg) l)).
  2: { rewrite map_map. apply (Forall2_map_eq _ _ (image_of t o u w)); assumption. }
  rewrite (all_some_map _ map_idx (map (fun p => vsub (point p) avg) map_pcs)).
  2: { rewrite map_map. apply (Forall2_map_eq _ _ (image_of t o u w)); assumption. }
  rewrite !map_map.
  assert (ID : forall p, pc_of (vadd (vsub (point p) avg) avg) = p).
  { intros [x y z]. unfold pc_of, vadd, vsub, point. cbn. f_equal; ring. }
  rewrite (map_ext _ (fun p => p) ID), !map_id.
  assert (map (fun x => pcz (pc_of (vadd (vsub (point x) avg) avg))) l = map pcz l) as -> by (apply map_ext; intro; rewrite ID; reflexivity).
  assert (map (fun x => pc_of (vadd (vsub (point x) avg) avg)) map_pcs = map_pcs) as -> by (rewrite (map_ext _ (fun p => p) ID); apply map_id).
  destruct (all_equal (map pcz l)) eqn:EA; [|reflexivity].
  exfalso. apply HZ. unfold all_equal in EA. rewrite forallb_forall in EA.
  assert (EH : forall p, In p l -> pcz p = hd 0 (map pcz l)).
  { intros p Hp. specialize (EA (pcz p) (in_map pcz l p Hp)). destruct (Req_EM_T (pcz p) (hd 0 (map pcz l))); [assumption|discriminate]. }
  intros p q Hp Hq. rewrite (EH p Hp), (EH q Hq). reflexivity.
Qed.
