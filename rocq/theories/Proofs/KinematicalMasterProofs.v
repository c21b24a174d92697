From Coq Require Import List Arith ZArith Reals Bool Lra Lia Psatz Permutation.
From Verif Require Import Model.Detector Model.Lambert Model.KinematicalMaster Spec.Euler Spec.KikuchiBandIntensity.
Import ListNotations.
Local Open Scope R_scope.

(** ** Sums *)
Lemma total_app a b : total (a ++ b) = total a + total b.
Proof. induction a as [|x a IH]; simpl; [lra|rewrite IH; lra]. Qed.
Lemma total_permutation a b : Permutation a b -> total a = total b.
Proof. induction 1; simpl; lra. Qed.
Lemma total_plus {A} (f g : A -> R) l : total (map (fun x => f x + g x) l) = total (map f l) + total (map g l).
Proof. induction l as [|x l IH]; simpl; [lra|rewrite IH; lra]. Qed.
Lemma total_ext {A} (f g : A -> R) l : (forall x, In x l -> f x = g x) -> total (map f l) = total (map g l).
Proof. intros H. f_equal. now apply map_ext_in. Qed.

(** What pixel k receives from a list of updates *)
Definition received (k : nat) (us : list update) : R := total (map snd (filter (fun u => (fst u =? k)%nat) us)).
Lemma received_cons k j c us : received k ((j, c) :: us) = (if (j =? k)%nat then c else 0) + received k us.
Proof. unfold received. simpl. destruct (j =? k)%nat; simpl; lra. Qed.
Lemma received_app k a b : received k (a ++ b) = received k a + received k b.
Proof. unfold received. now rewrite filter_app, map_app, total_app. Qed.
Lemma serial_memory us p k : fold_left (fun p u => write p (fst u) (p (fst u) + snd u)) us p k = p k + received k us.
Proof.
  revert p. induction us as [|[j c] us IH]; intros p; [unfold received; simpl; lra|].
  simpl fold_left. rewrite IH, received_cons. unfold write. rewrite (Nat.eqb_sym k j). destruct (Nat.eqb_spec j k) as [->|]; lra.
Qed.

(** What reflector i adds to pixel j *)
Section Updates.
Variables (intensity : list R) (xyz_hemi xyz_reflector : list vec) (theta : list R).
Definition share (i j : nat) : R :=
  match addition (nth i intensity 0) (nth i theta 0) (nth i xyz_reflector origin) (nth j xyz_hemi origin) with Some c => c | None => 0 end.
Lemma received_updates i k : received k (updates_of intensity xyz_hemi xyz_reflector theta i) = if (k <? List.length xyz_hemi)%nat then share i k else 0.
Proof.
  unfold updates_of. set (f := fun j => _).
  assert (G : forall n a, received k (flat_map f (seq a n)) = if ((a <=? k) && (k <? a + n))%nat then share i k else 0).
  { induction n as [|n IH]; intros a.
    - simpl. unfold received. simpl. destruct (Nat.leb_spec a k), (Nat.ltb_spec k (a + 0)); simpl; try lra; lia.
    - cbn [seq flat_map]. rewrite received_app, IH. 
      assert (E : received k (f a) = if (a =? k)%nat then share i k else 0).
      { unfold f. destruct (Nat.eqb_spec a k) as [->|Hn].
        - unfold share. destruct (addition _ _ _ _) as [c|]; [rewrite received_cons, Nat.eqb_refl|]; unfold received; simpl; lra.
        - destruct (addition _ _ _ _) as [c|]; [rewrite received_cons; destruct (Nat.eqb_spec a k); [contradiction|]|]; unfold received; simpl; lra. }
      rewrite E. destruct (Nat.eqb_spec a k), (Nat.leb_spec a k), (Nat.ltb_spec k (a + S n)), (Nat.leb_spec (S a) k), (Nat.ltb_spec k (S a + n)); simpl; try lra; lia. }
  rewrite G. destruct (Nat.ltb_spec k (0 + List.length xyz_hemi)), (Nat.ltb_spec k (List.length xyz_hemi)); simpl; try reflexivity; lia.
Qed.
Lemma received_shares is k : (k < List.length xyz_hemi)%nat ->
  received k (flat_map (updates_of intensity xyz_hemi xyz_reflector theta) is) = total (map (fun i => share i k) is).
Proof.
  intros Hk. induction is as [|i is IH]; [reflexivity|]. cbn [flat_map map]. rewrite received_app, IH, received_updates.
  destruct (Nat.ltb_spec k (List.length xyz_hemi)); [simpl; lra|lia].
Qed.
Lemma get_pattern_length : List.length (get_pattern intensity xyz_hemi xyz_reflector theta) = List.length xyz_hemi.
Proof. unfold get_pattern. now rewrite map_length, seq_length. Qed.
Lemma get_pattern_nth k : (k < List.length xyz_hemi)%nat ->
  nth_error (get_pattern intensity xyz_hemi xyz_reflector theta) k = Some (total (map (fun i => share i k) (seq 0 (List.length xyz_reflector)))).
Proof.
  intros Hk. unfold get_pattern. rewrite nth_error_map. 
  rewrite (nth_error_nth' _ 0%nat) by now rewrite seq_length. rewrite seq_nth by lia. cbn [option_map Nat.add].
  rewrite serial_memory, received_shares by exact Hk. f_equal. lra.
Qed.
End Updates.

(** ** Bands *)
Lemma length3_pos g : g <> Vec 0 0 0 -> 0 < length3 g.
Proof.
  intros H. unfold length3. apply sqrt_lt_R0. destruct g as [x y z]. unfold dot3. cbn [vx vy vz] in *.
  destruct (Req_dec x 0) as [->|]; [destruct (Req_dec y 0) as [->|]; [destruct (Req_dec z 0) as [->|]; [now elim H|]|]|]; nra.
Qed.
Lemma length3_sq g : length3 g * length3 g = dot3 g g.
Proof. unfold length3. apply sqrt_sqrt. unfold dot3. nra. Qed.
Lemma vec_dot_elevation p v : normal p <> Vec 0 0 0 -> vec_dot (normalise (normal p)) v = elevation p v.
Proof.
  intros H. pose proof (length3_pos _ H). unfold vec_dot, normalise, elevation. cbn [vx vy vz].
  change (norm (normal p)) with (length3 (normal p)). unfold dot3. field. lra.
Qed.
Lemma cauchy u v : dot3 u v * dot3 u v <= dot3 u u * dot3 v v.
Proof.
  destruct u as [a b c], v as [x y z]. unfold dot3. cbn [vx vy vz].
  pose proof (Rle_0_sqr (a * y - b * x)). pose proof (Rle_0_sqr (a * z - c * x)). pose proof (Rle_0_sqr (b * z - c * y)). unfold Rsqr in *. nra.
Qed.
Lemma elevation_range p v : normal p <> Vec 0 0 0 -> dot3 v v = 1 -> -1 <= elevation p v <= 1.
Proof.
  intros H Hv. pose proof (length3_pos _ H) as L. pose proof (length3_sq (normal p)) as S. pose proof (cauchy (normal p) v) as C.
  rewrite Hv, <- S in C. unfold elevation. set (l := length3 (normal p)) in *. set (d := dot3 (normal p) v) in *.
  assert (E : d / l * l = d) by (field; lra). set (q := d / l) in *. rewrite <- E in C. assert (q * q <= 1). 
  { assert (q * l * (q * l) = (q * q) * (l * l)) by ring. assert (0 < l * l) by nra. nra. }
  split; nra.
Qed.

Lemma acos_le_right D : -1 <= D <= 1 -> (acos D <= PI / 2 <-> 0 <= D).
Proof.
  intros HD. pose proof (acos_bound D) as B. pose proof (cos_acos D HD) as C. pose proof PI_RGT_0 as P0. split; intros H.
  - destruct (Rle_or_lt 0 D); [assumption|]. assert (PI / 2 < acos D); [|lra].
    apply cos_decreasing_0; try lra. rewrite cos_PI2. lra.
  - destruct (Rle_or_lt (acos D) (PI / 2)) as [|G]; [assumption|].
    assert (cos (acos D) < cos (PI / 2)) by (apply cos_decreasing_1; lra). rewrite cos_PI2 in *. lra.
Qed.
Lemma acos_ge_band D t : -1 <= D <= 1 -> 0 < t < PI / 2 -> (PI / 2 - t <= acos D <-> D <= sin t).
Proof.
  intros HD Ht. pose proof (acos_bound D) as B. pose proof (cos_acos D HD) as C. pose proof (cos_shift t) as S. split; intros H.
  - destruct (Rle_or_lt D (sin t)); [assumption|]. assert (acos D < PI / 2 - t); [|lra].
    apply cos_decreasing_0; try lra.
  - destruct (Rle_or_lt (PI / 2 - t) (acos D)) as [|G]; [assumption|].
    assert (cos (PI / 2 - t) < cos (acos D)) by (apply cos_decreasing_1; lra). lra.
Qed.

(** The half of a band on the side of the plane's normal, with half of the intensity on the plane itself *)
Definition half_band (p : plane) (v : vec) : R :=
  if Rle_dec (Rabs (elevation p v)) (/ 10000000) then strength p / 2
  else if Rle_dec 0 (elevation p v) then if Rle_dec (elevation p v) (sin (bragg p)) then strength p else 0 else 0.

Lemma addition_half_band p v : normal p <> Vec 0 0 0 -> 0 < bragg p < PI / 2 -> dot3 v v = 1 ->
  match addition (strength p) (bragg p) (normalise (normal p)) v with Some c => c | None => 0 end = half_band p v.
Proof.
  intros Hn Hb Hv. unfold addition, half_band. cbv zeta. rewrite vec_dot_elevation by exact Hn.
  pose proof (elevation_range p v Hn Hv) as R. set (D := elevation p v) in *.
  destruct (Rle_dec (Rabs D) _); [lra|].
  pose proof (acos_le_right D R) as A1. pose proof (acos_ge_band D (bragg p) R Hb) as A2.
  destruct (Rle_dec (acos D) (PI / 2)), (Rle_dec 0 D); try tauto.
  destruct (Rle_dec (PI / 2 - bragg p) (acos D)), (Rle_dec D (sin (bragg p))); tauto.
Qed.

Lemma dot3_negated u v : dot3 (negated u) v = - dot3 u v.
Proof. unfold dot3, negated. cbn [vx vy vz]. ring. Qed.
Lemma length3_negated u : length3 (negated u) = length3 u.
Proof. unfold length3. f_equal. unfold dot3, negated. cbn [vx vy vz]. ring. Qed.
Lemma elevation_other_side p v : elevation (other_side p) v = - elevation p v.
Proof. unfold elevation, other_side. cbn [normal]. rewrite dot3_negated, length3_negated. unfold Rdiv. ring. Qed.

Lemma both_halves p v : / 10000000 <= sin (bragg p) ->
  half_band p v + half_band (other_side p) v = if in_band_dec p v then strength p else 0.
Proof.
  intros Hs. unfold half_band. rewrite elevation_other_side, Rabs_Ropp. change (strength (other_side p)) with (strength p). change (bragg (other_side p)) with (bragg p).
  unfold in_band_dec, in_band. set (D := elevation p v). set (s := sin (bragg p)) in *. set (t := / 10000000) in *.
  assert (0 < t) by (unfold t; lra).
  destruct (Rle_dec (Rabs D) t) as [H1|H1], (Rle_dec (Rabs D) s) as [H2|H2]; try lra.
  all: destruct (Rle_dec 0 D) as [H3|H3], (Rle_dec 0 (- D)) as [H4|H4];
    try (assert (D = 0) by lra; subst D; rewrite H0, Rabs_R0 in *; lra).
  all: try rewrite Rabs_right in * by lra; try rewrite Rabs_left in * by lra.
  all: repeat (destruct (Rle_dec _ _); try lra).
Qed.

Lemma half_bands_of_pairs half v : Forall (fun p => / 10000000 <= sin (bragg p)) half ->
  total (map (fun p => half_band p v) (half ++ map other_side half)) = band_intensity half v.
Proof.
  intros H. rewrite map_app, total_app, map_map, <- total_plus. unfold band_intensity. apply total_ext.
  intros p Hp. apply both_halves. rewrite Forall_forall in H. auto.
Qed.

(** ** Stereographic grid *)
Lemma xy2vector_unit pole xy : pole * pole = 1 -> dot3 (xy2vector pole xy) (xy2vector pole xy) = 1.
Proof.
  intros Hp. destruct xy as [x y]. unfold xy2vector, dot3. cbn [vx vy vz].
  assert (D : 1 + x * x + y * y <> 0) by nra. 
  replace (- pole * (1 - x * x - y * y) / (1 + x * x + y * y) * (- pole * (1 - x * x - y * y) / (1 + x * x + y * y)))
    with (pole * pole * ((1 - x * x - y * y) * (1 - x * x - y * y) / ((1 + x * x + y * y) * (1 + x * x + y * y)))) by (field; exact D).
  rewrite Hp. field. exact D.
Qed.
