From Coq Require Import List Reals ZArith Lra Lia Permutation Bool.
From Verif Require Import Model.Pattern Model.Intensity Model.RgbImage Proofs.PatternProofs Proofs.IntensityProofs Spec.RgbSpec.
Import ListNotations.
Local Open Scope R_scope.

Lemma map_affine_nth a b l i : (i < length l)%nat -> nth i (map (fun x => a * x + b) l) 0 = a * nth i l 0 + b.
Proof. intros H. rewrite (nth_indep _ 0 (a * 0 + b)) by now rewrite map_length. exact (map_nth (fun x => a * x + b) l 0 i). Qed.
Lemma insert_affine a b x l : 0 < a -> insert (a * x + b) (map (fun x => a * x + b) l) = map (fun x => a * x + b) (insert x l).
Proof.
  intros A. induction l as [|y l IH]; [reflexivity|]. cbn [map insert]. destruct (Rle_dec (a * x + b) (a * y + b)) as [H|H], (Rle_dec x y) as [K|K].
  - reflexivity.
  - exfalso. apply K. apply Rmult_le_reg_l with a; lra.
  - exfalso. apply H. pose proof (Rmult_le_compat_l a x y (Rlt_le _ _ A) K). lra.
  - cbn [map]. now rewrite IH.
Qed.
Lemma sort_affine a b l : 0 < a -> sort (map (fun x => a * x + b) l) = map (fun x => a * x + b) (sort l).
Proof.
  intros A. induction l as [|x l IH]; [reflexivity|]. change (sort (map (fun x => a * x + b) (x :: l))) with (insert (a * x + b) (sort (map (fun x => a * x + b) l))).
  rewrite IH, insert_affine by assumption. reflexivity.
Qed.
Lemma median_affine a b l : 0 < a -> l <> [] -> median (map (fun x => a * x + b) l) = a * median l + b.
Proof.
  intros A N. unfold median. rewrite sort_affine, map_length by assumption. assert (L : (0 < length l)%nat) by (destruct l; [contradiction|cbn; lia]).
  rewrite !map_affine_nth by (rewrite sort_length; first [apply Nat.div_lt; lia | pose proof (Nat.div_le_upper_bound (length l - 1) 2 (length l - 1) ltac:(lia) ltac:(lia)); lia]).
  lra.
Qed.
Lemma vmean_pos_scale a l : vmean (map (fun x => a * x) l) = a * vmean l.
Proof.
  unfold vmean. rewrite map_length. replace (vsum (map (fun x => a * x) l)) with (a * vsum l); [unfold Rdiv; ring|].
  induction l as [|x l IH]; cbn; [ring|]. unfold vsum in IH. rewrite <- IH. ring.
Qed.
Lemma vstd_affine a b l : 0 < a -> vstd (map (fun x => a * x + b) l) = a * vstd l.
Proof.
  intros A. destruct l as [|x0 l0] eqn:E; [unfold vstd, vmean; cbn; unfold Rdiv; rewrite !Rmult_0_l, sqrt_0; ring|]. rewrite <- E.
  assert (N : l <> []) by (rewrite E; discriminate). unfold vstd. rewrite vmean_affine by assumption. rewrite map_map.
  replace (map (fun x => (a * x + b - (a * vmean l + b)) * (a * x + b - (a * vmean l + b))) l) with (map (fun y => (a * a) * y) (map (fun x => (x - vmean l) * (x - vmean l)) l))
    by (rewrite map_map; apply map_ext; intros; ring).
  rewrite vmean_pos_scale. rewrite sqrt_mult_alt by nra. rewrite sqrt_square by lra. reflexivity.
Qed.
Lemma percentile_affine q a b l : 0 < a -> l <> [] -> 0 <= q <= 100 -> percentile q (map (fun x => a * x + b) l) = a * percentile q l + b.
Proof.
  intros A N Q. unfold percentile. rewrite sort_affine, map_length by assumption. assert (L : (0 < length l)%nat) by (destruct l; [contradiction|cbn; lia]).
  set (v := q / 100 * INR (length l - 1)). set (k := Z.to_nat (Detector.trunc v)).
  assert (V : 0 <= v <= INR (length l - 1)). { unfold v. pose proof (pos_INR (length l - 1)). split; [apply Rmult_le_pos; lra|]. rewrite <- (Rmult_1_l (INR (length l - 1))) at 2. apply Rmult_le_compat_r; lra. }
  assert (K : (k <= length l - 1)%nat).
  { unfold k. pose proof (trunc_le _ _ (proj2 V)) as T. rewrite INR_IZR_INZ, trunc_IZR in T. lia. }
  rewrite !map_affine_nth by (rewrite sort_length; lia). lra.
Qed.
(** The standard deviation. *)
Lemma vstd_zero l : vstd l = 0 -> forall x, In x l -> x = vmean l.
Proof.
  intros H x I. unfold vstd in H. assert (N : l <> []) by (destruct l; [contradiction|discriminate]).
  assert (G : forall m, 0 <= vsum (map (fun x => (x - m) * (x - m)) l)).
  { intros m. clear. induction l as [|y l IH]; cbn; [lra|]. unfold vsum in IH. pose proof (Rle_0_sqr (y - m)) as S. unfold Rsqr in S. lra. }
  assert (L : 0 < INR (length l)) by (apply lt_0_INR; destruct l; [contradiction|cbn; lia]).
  apply sqrt_eq_0 in H; [|unfold vmean; rewrite map_length; apply Rmult_le_pos; [apply G|left; now apply Rinv_0_lt_compat]].
  set (m := vmean l) in *. unfold vmean in H. rewrite map_length in H.
  assert (Z : vsum (map (fun x => (x - m) * (x - m)) l) = 0).
  { apply (Rmult_eq_reg_r (/ INR (length l))); [rewrite Rmult_0_l; exact H|apply Rinv_neq_0_compat; lra]. }
  clear - Z I. clearbody m. induction l as [|y l IH]; [contradiction|].
  change (vsum (map (fun x => (x - m) * (x - m)) (y :: l))) with ((y - m) * (y - m) + vsum (map (fun x => (x - m) * (x - m)) l)) in Z.
  assert (P : 0 <= vsum (map (fun x => (x - m) * (x - m)) l)) by (clear; unfold vsum; induction l as [|z l IH]; cbn; [lra|pose proof (Rle_0_sqr (z - m)) as S; unfold Rsqr in S; lra]).
  pose proof (Rle_0_sqr (y - m)) as S. unfold Rsqr in S. destruct I as [<-|I].
  - assert (E : (y - m) * (y - m) = 0) by lra. apply Rmult_integral in E. lra.
  - apply IH; [assumption|lra].
Qed.
Lemma vstd_not_constant l x y : In x l -> In y l -> x <> y -> vstd l <> 0.
Proof. intros X Y N H. apply N. now rewrite (vstd_zero l H x X), (vstd_zero l H y Y). Qed.
Lemma vstd_nonneg l : 0 <= vstd l.
Proof. apply sqrt_pos. Qed.
Lemma vstd_constant l c : (forall x, In x l -> x = c) -> vstd l = 0.
Proof.
  intros H. destruct l as [|x0 l0] eqn:E; [unfold vstd, vmean; cbn; unfold Rdiv; rewrite Rmult_0_l; apply sqrt_0|]. rewrite <- E in *.
  assert (N : l <> []) by (rewrite E; discriminate). assert (L : 0 < INR (length l)) by (apply lt_0_INR; rewrite E; cbn; lia).
  assert (M : vmean l = c). { unfold vmean. rewrite (vsum_const c l H). field. lra. }
  unfold vstd. rewrite M. unfold vmean. rewrite (vsum_const 0); [unfold Rdiv; rewrite !Rmult_0_l; apply sqrt_0|].
  intros y Y. apply in_map_iff in Y as (x & <- & X). rewrite (H x X). ring.
Qed.

Lemma sort_permutation l : Permutation (sort l) l.
Proof.
  induction l as [|x l IH]; [constructor|]. cbn. fold (sort l). transitivity (x :: sort l); [|now constructor].
  generalize (sort l). intros s. induction s as [|y s IHs]; cbn; [reflexivity|]. destruct (Rle_dec x y); [reflexivity|].
  rewrite IHs. constructor.
Qed.
Lemma sorted_unique l k : Permutation l k -> (forall i j, (i <= j < length l)%nat -> nth i l 0 <= nth j l 0) -> (forall i j, (i <= j < length k)%nat -> nth i k 0 <= nth j k 0) -> l = k.
Proof.
  revert k. induction l as [|x l IH]; intros k P L K; [now apply Permutation_nil in P|].
  destruct k as [|y k]; [apply Permutation_sym, Permutation_nil in P; discriminate|].
  assert (x = y) as ->.
  { assert (A : forall z, In z (x :: l) -> x <= z). { intros z Z. apply In_nth with (d := 0) in Z as (i & I & <-). apply (L 0%nat i). lia. }
    assert (B : forall z, In z (y :: k) -> y <= z). { intros z Z. apply In_nth with (d := 0) in Z as (i & I & <-). apply (K 0%nat i). lia. }
    apply Rle_antisym; [apply A; apply (Permutation_in _ (Permutation_sym P)); now left|apply B; apply (Permutation_in _ P); now left]. }
  f_equal. apply IH; [now apply Permutation_cons_inv in P|..]; intros i j H; [apply (L (S i) (S j))|apply (K (S i) (S j))]; cbn; lia.
Qed.
Lemma median_spec p m : is_median p m <-> m = median p.
Proof.
  assert (S : forall i j, (i <= j < length (sort p))%nat -> nth i (sort p) 0 <= nth j (sort p) 0) by (intros; apply increasing_nth; [apply sort_increasing|assumption]).
  split.
  - intros (s & P & I & ->). assert (s = sort p) as ->; [|unfold median; now rewrite sort_length].
    apply sorted_unique; [|assumption..]. rewrite P. symmetry. apply sort_permutation.
  - intros ->. exists (sort p). split; [apply sort_permutation|]. split; [assumption|]. unfold median. now rewrite sort_length.
Qed.
Lemma vstd_spec p : vstd p = sqrt (variance p).
Proof. unfold vstd, variance, mean, vmean, vsum. f_equal. f_equal; [|now rewrite !map_length]. f_equal. apply map_ext. intros x. ring. Qed.

(** Images without NaN. *)
Lemma defined_some l : defined (map Some l) = l.
Proof. induction l as [|x l IH]; [reflexivity|]. change (defined (map Some (x :: l))) with (x :: defined (map Some l)). now rewrite IH. Qed.
Lemma concat_some cs : concat (map (map Some) cs) = map (@Some R) (concat cs).
Proof. induction cs as [|c cs IH]; [reflexivity|]. cbn. now rewrite IH, map_app. Qed.
Lemma all_defined_some l : all_defined (map Some l) = true.
Proof. induction l as [|x l IH]; [reflexivity|exact IH]. Qed.
Lemma quotient_affine a b x lo hi : 0 < a -> quotient (a * x + b - (a * lo + b)) (a * hi + b - (a * lo + b)) = quotient (x - lo) (hi - lo).
Proof.
  intros A. unfold quotient. destruct (Req_EM_T (a * hi + b - (a * lo + b)) 0) as [E|E], (Req_EM_T (hi - lo) 0) as [F|F].
  - reflexivity.
  - exfalso. apply F. apply (Rmult_eq_reg_l a); lra.
  - exfalso. apply E. replace hi with lo by lra. ring.
  - f_equal. field. split; [exact F|]. intros H. apply E. rewrite <- H. ring.
Qed.
Lemma clip_affine a b lo hi x : 0 < a -> clip (a * lo + b) (a * hi + b) (a * x + b) = a * clip lo hi x + b.
Proof.
  intros A. unfold clip. replace (Rmax (a * lo + b) (a * x + b)) with (a * Rmax lo x + b).
  - unfold Rmin. destruct (Rle_dec (a * hi + b) (a * Rmax lo x + b)) as [H|H], (Rle_dec hi (Rmax lo x)) as [K|K]; try reflexivity.
    + exfalso. apply K. apply (Rmult_le_reg_l a); lra.
    + exfalso. apply H. pose proof (Rmult_le_compat_l a _ _ (Rlt_le _ _ A) K). lra.
  - unfold Rmax. destruct (Rle_dec lo x) as [H|H], (Rle_dec (a * lo + b) (a * x + b)) as [K|K]; try reflexivity.
    + exfalso. apply K. pose proof (Rmult_le_compat_l a _ _ (Rlt_le _ _ A) H). lra.
    + exfalso. apply H. apply (Rmult_le_reg_l a); lra.
Qed.
Definition good_percentiles (p : option (R * R)) : Prop := match p with None => True | Some (a, b) => 0 <= a <= 100 /\ 0 <= b <= 100 end.
Lemma stretch_affine t pct a b cs : 0 < a -> good_percentiles pct ->
  stretch t pct (map (map Some) (map (map (fun x => a * x + b)) cs)) = stretch t pct (map (map Some) cs).
Proof.
  intros A G. unfold stretch. rewrite !concat_some. rewrite !all_defined_some. unfold nan_range. rewrite !defined_some.
  replace (concat (map (map (fun x => a * x + b)) cs)) with (map (fun x => a * x + b) (concat cs)) by apply concat_map.
  set (d := concat cs). rewrite !map_map. apply map_ext_in. intros c C. rewrite !map_map. apply map_ext_in. intros x X. cbn [bind].
  assert (N : d <> []) by (intros E; assert (I : In x d) by (apply in_concat; exists c; now split); now rewrite E in I).
  destruct pct as [[p q]|].
  - destruct G as [P Q]. cbn [fst snd]. rewrite !percentile_affine, clip_affine, quotient_affine by assumption. reflexivity.
  - destruct (map (fun x => a * x + b) d) as [|y l] eqn:E; [destruct d; [contradiction|discriminate]|]. rewrite <- E.
    destruct d as [|z d']; [contradiction|]. set (d := z :: d') in *. cbn [bind fst snd].
    rewrite vmin_map, vmax_map by (try assumption; intros u v L; pose proof (Rmult_le_compat_l a _ _ (Rlt_le _ _ A) L); lra).
    now rewrite quotient_affine.
Qed.
(** Percentiles are in order. *)
Lemma percentile_mono p q l : l <> [] -> 0 <= p <= q -> q <= 100 -> percentile p l <= percentile q l.
Proof.
  intros N P Q. unfold percentile. assert (L : (0 < length l)%nat) by (destruct l; [contradiction|cbn; lia]).
  set (n := (length l - 1)%nat). set (v := p / 100 * INR n). set (w := q / 100 * INR n). pose proof (pos_INR n) as Pn.
  assert (V : 0 <= v) by (unfold v; apply Rmult_le_pos; lra). assert (VW : v <= w) by (unfold v, w; apply Rmult_le_compat_r; lra).
  assert (W : w <= INR n) by (unfold w; rewrite <- (Rmult_1_l (INR n)) at 2; apply Rmult_le_compat_r; lra).
  set (j := Z.to_nat (Detector.trunc v)). set (k := Z.to_nat (Detector.trunc w)).
  destruct (trunc_nonneg v V) as [[A1 A2] A3]. destruct (trunc_nonneg w (Rle_trans _ _ _ V VW)) as [[B1 B2] B3].
  assert (Ej : INR j = IZR (Detector.trunc v)) by (unfold j; rewrite INR_IZR_INZ, Z2Nat.id by assumption; reflexivity).
  assert (Ek : INR k = IZR (Detector.trunc w)) by (unfold k; rewrite INR_IZR_INZ, Z2Nat.id by assumption; reflexivity).
  assert (K : (k <= n)%nat) by (apply INR_le; lra). assert (JK : (j <= k)%nat) by (apply Z2Nat.inj_le; [assumption..|]; now apply trunc_le).
  assert (S : forall a b, (a <= b <= n)%nat -> nth a (sort l) 0 <= nth b (sort l) 0) by (intros; apply increasing_nth; [apply sort_increasing|rewrite sort_length; lia]).
  pose proof (S j (Nat.min (j + 1) n) ltac:(lia)) as Sj. pose proof (S k (Nat.min (k + 1) n) ltac:(lia)) as Sk.
  destruct (Nat.eq_dec j k) as [E|E].
  - rewrite <- E in *. assert ((v - INR j) * (nth (Nat.min (j + 1) n) (sort l) 0 - nth j (sort l) 0) <= (w - INR j) * (nth (Nat.min (j + 1) n) (sort l) 0 - nth j (sort l) 0));
      [apply Rmult_le_compat_r; lra|lra].
  - pose proof (S (Nat.min (j + 1) n) k ltac:(lia)) as Sjk. set (a := nth j (sort l) 0) in *. set (b := nth (Nat.min (j + 1) n) (sort l) 0) in *.
    set (c := nth k (sort l) 0) in *. set (e := nth (Nat.min (k + 1) n) (sort l) 0) in *.
    assert ((v - INR j) * (b - a) <= 1 * (b - a)) by (apply Rmult_le_compat_r; lra). assert (0 <= (w - INR k) * (e - c)) by (apply Rmult_le_pos; lra). lra.
Qed.
(** Normalized channels. *)
Definition level (t : dtype) (bright contrast : R) (p : list R) (x : R) : R :=
  IZR (snd (dtype_range t) / 2) + bright + contrast * (dtype_max t * (3125 / 10000)) * (x - median p) / vstd p.
Lemma normalize_varied t b c p : vstd p <> 0 -> normalize_image t b c p = map Some (map (fun x => clip 0 (dtype_max t) (level t b c p x)) p).
Proof.
  intros V. unfold normalize_image. rewrite map_map. apply map_ext. intros x. unfold quotient. destruct (Req_EM_T (vstd p) 0); [contradiction|]. reflexivity.
Qed.
Lemma normalize_constant t b c p : vstd p = 0 -> normalize_image t b c p = map (fun _ => None) p.
Proof. intros V. unfold normalize_image. apply map_ext. intros x. unfold quotient. destruct (Req_EM_T (vstd p) 0); [reflexivity|contradiction]. Qed.
Lemma normalize_affine t b c a k p : 0 < a -> normalize_image t b c (map (fun x => a * x + k) p) = normalize_image t b c p.
Proof.
  intros A. destruct p as [|x0 p0] eqn:E; [reflexivity|]. rewrite <- E. assert (N : p <> []) by (rewrite E; discriminate).
  destruct (Req_EM_T (vstd p) 0) as [V|V].
  - rewrite !normalize_constant; [|assumption|rewrite vstd_affine, V by assumption; ring]. now rewrite map_map.
  - rewrite !normalize_varied; [|assumption|rewrite vstd_affine by assumption; intros H; apply Rmult_integral in H; lra].
    rewrite !map_map. apply map_ext. intros x. do 2 f_equal. unfold level. rewrite median_affine, vstd_affine by assumption. field. split; lra.
Qed.
