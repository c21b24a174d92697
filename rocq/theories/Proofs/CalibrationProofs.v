From Coq Require Import String.
From Coq Require Import List Arith ZArith QArith Qabs Bool Lia Lqa.
From Verif Require Import Model.PyArray Model.GridIndices Model.Calibration Spec.ScanPositions Proofs.ListLemmas Proofs.GridIndicesProofs.
From Verif Require Model.RefinementInput.
Import ListNotations.
Local Open Scope nat_scope.

Lemma isclose_refl tol a : (0 <= tol)%Q -> RefinementInput.isclose tol a a = true.
Proof.
  intros H. unfold RefinementInput.isclose. apply Qle_bool_iff.
  assert (E : (Qabs (a - a) == 0)%Q) by (rewrite (Qplus_opp_r a); reflexivity). rewrite E.
  pose proof (Qabs_nonneg a). lra.
Qed.
Lemma box_seq a n : 1 <= n -> box (seq a n) = n.
Proof.
  intros H. destruct n as [|n]; [lia|]. unfold box. cbn [seq].
  assert (E : last (seq a (S n)) a = a + n).
  { rewrite seq_S. apply last_last. }
  cbn [seq] in E. rewrite E. lia.
Qed.
Lemma shape_eqb_refl l : RefinementInput.shape_eqb l l = true.
Proof. unfold RefinementInput.shape_eqb. now destruct (list_eq_dec Nat.eq_dec l l). Qed.

(** Maps which fit: points without gaps, steps equal to the scales *)
Definition fits (s : signal) (m : cmap) : Prop :=
  exists y x y0 x0, nav s = [y; x] /\ name y = "y"%string /\ name x = "x"%string
    /\ points m = [seq y0 (size y); seq x0 (size x)] /\ steps m = [scale y; scale x] /\ 1 <= size y /\ 1 <= size x.

Lemma fits_accepted s m : fits s m -> accepted_silently s m.
Proof.
  intros (y & x & y0 & x0 & N & Ny & Nx & P & D & Hy & Hx). unfold accepted_silently, compatible, RefinementInput.xmap_is_compatible.
  rewrite N. cbn [map RefinementInput.axis_name RefinementInput.size RefinementInput.scale]. rewrite Ny, Nx.
  unfold RefinementInput.step_size. cbn [String.eqb Ascii.eqb Bool.eqb RefinementInput.all_some option_map].
  unfold map_shape, map_dy, map_dx. rewrite P, D. cbn [map]. rewrite !box_seq by assumption. rewrite shape_eqb_refl.
  unfold RefinementInput.allclose. cbn [combine forallb fst snd]. now rewrite !isclose_refl by (compute; discriminate).
Qed.
Lemma of_nat_plus a b : (of_nat (a + b) == of_nat a + of_nat b)%Q.
Proof. unfold of_nat. rewrite Nat2Z.inj_add, inject_Z_plus. reflexivity. Qed.
Lemma of_nat_mult a b : (of_nat (a * b) == of_nat a * of_nat b)%Q.
Proof. unfold of_nat. rewrite Nat2Z.inj_mul, inject_Z_mult. reflexivity. Qed.

Lemma fits_distances s m : fits s m -> same_distances s m.
Proof.
  intros (y & x & y0 & x0 & N & Ny & Nx & P & D & Hy & Hx) k a i i' Ha Hi Hi'. rewrite N in Ha.
  assert (C : (k = 0 /\ a = y) \/ (k = 1 /\ a = x)).
  { destruct k as [|[|k]]; cbn in Ha; [left|right|destruct k; discriminate]; split; try reflexivity; congruence. }
  destruct C as [[-> ->]|[-> ->]].
  - exists (scale y * of_nat (y0 + i))%Q, (scale y * of_nat (y0 + i'))%Q. repeat split.
    + exists (seq y0 (size y)), (scale y), (y0 + i). rewrite P, D. repeat split; try reflexivity. now apply nth_error_seq.
    + exists (seq y0 (size y)), (scale y), (y0 + i'). rewrite P, D. repeat split; try reflexivity. now apply nth_error_seq.
    + unfold position. rewrite !of_nat_plus. ring.
  - exists (scale x * of_nat (x0 + i))%Q, (scale x * of_nat (x0 + i'))%Q. repeat split.
    + exists (seq x0 (size x)), (scale x), (x0 + i). rewrite P, D. repeat split; try reflexivity. now apply nth_error_seq.
    + exists (seq x0 (size x)), (scale x), (x0 + i'). rewrite P, D. repeat split; try reflexivity. now apply nth_error_seq.
    + unfold position. rewrite !of_nat_plus. ring.
Qed.

Lemma index_fits c s : map_axes s -> several_points s -> fits s (index c s).
Proof.
  intros (y & x & N & Ny & Nx) S. unfold several_points in S. rewrite N in S. inversion S as [|? ? Sy S']; subst.
  inversion S' as [|? ? Sx _]; subst. exists y, x, 0, 0. repeat split; try assumption; try lia.
  - unfold index. rewrite N. reflexivity.
  - unfold index. rewrite N. cbn [map new_map steps combine fst snd].
    destruct (Nat.leb_spec (size y) 1); [lia|]. destruct (Nat.leb_spec (size x) 1); [lia|]. reflexivity.
Qed.
Lemma filter_none {A} (p : A -> bool) l : (forall u, In u l -> p u = false) -> filter p l = [].
Proof. induction l as [|u l IH]; intros H; cbn; [reflexivity|]. rewrite (H u (or_introl eq_refl)). apply IH. intros v Hv. apply H. now right. Qed.
Lemma filter_all {A} (p : A -> bool) l : (forall u, In u l -> p u = true) -> filter p l = l.
Proof. induction l as [|u l IH]; intros H; cbn; [reflexivity|]. rewrite (H u (or_introl eq_refl)). f_equal. apply IH. intros v Hv. apply H. now right. Qed.
Lemma filter_seq a n lo hi : lo <= hi -> hi <= n ->
  filter (fun i => (a + lo <=? i) && (i <? a + hi)) (seq a n) = seq (a + lo) (hi - lo).
Proof.
  intros H1 H2. replace n with (lo + ((hi - lo) + (n - hi))) by lia. rewrite !seq_app, !filter_app.
  rewrite (filter_none _ (seq a lo)).
  2:{ intros i Hi. apply in_seq in Hi. destruct (Nat.leb_spec (a + lo) i); [lia|reflexivity]. }
  rewrite (filter_none _ (seq (a + lo + (hi - lo)) _)).
  2:{ intros i Hi. apply in_seq in Hi. destruct (Nat.ltb_spec i (a + hi)); [lia|]. now rewrite andb_false_r. }
  rewrite app_nil_r. cbn [app]. rewrite (filter_all _ (seq (a + lo) (hi - lo))); [reflexivity|].
  intros i Hi. apply in_seq in Hi.
  destruct (Nat.leb_spec (a + lo) i); [|lia]. destruct (Nat.ltb_spec i (a + hi)); [reflexivity|lia].
Qed.

Lemma sliced_points a n lo hi : lo < hi -> hi <= n -> slice_points (lo, hi) (seq a n) = seq (a + lo) (hi - lo).
Proof.
  intros H1 H2. unfold slice_points. destruct (seq a n) as [|b l] eqn:E; [destruct n; [lia|discriminate]|].
  assert (b = a) as -> by (destruct n; [discriminate|]; cbn in E; congruence). rewrite <- E. cbn [fst snd]. apply filter_seq; lia.
Qed.
(** Slicing *)
Lemma inav_two sl s s' y x : nav s = [y; x] -> inav sl s = Some s' ->
  exists l h l' h', sl = [(l, h); (l', h')] /\ l < h /\ h <= size y /\ l' < h' /\ h' <= size x
    /\ nav s' = [slice_axis (l, h) y; slice_axis (l', h') x] /\ xmap s' = option_map (slice_map sl) (xmap s)
    /\ sig_y s' = sig_y s /\ sig_x s' = sig_x s /\ px_size s' = px_size s.
Proof.
  intros N E. unfold inav in E. rewrite N in E. destruct sl as [|[l h] [|[l' h'] [|? ?]]]; cbn [length Nat.eqb andb] in E; try discriminate.
  cbn [combine forallb fst snd] in E.
  destruct (Nat.ltb_spec l h), (Nat.leb_spec h (size y)), (Nat.ltb_spec l' h'), (Nat.leb_spec h' (size x)); cbn [andb] in E; try discriminate.
  injection E as <-. exists l, h, l', h'. cbn [nav xmap sig_y sig_x px_size]. repeat split; try assumption. 
Qed.
Lemma inav_fits sl s s' m : fits s m -> xmap s = Some m -> inav sl s = Some s' ->
  exists m', xmap s' = Some m' /\ fits s' m' /\ contents m' = contents m.
Proof.
  intros (y & x & y0 & x0 & N & Ny & Nx & P & D & Hy & Hx) M E.
  destruct (inav_two _ _ _ _ _ N E) as (l & h & l' & h' & -> & A1 & A2 & A3 & A4 & N' & M' & _).
  exists (slice_map [(l, h); (l', h')] m). rewrite M', M. split; [reflexivity|]. split; [|reflexivity].
  exists (slice_axis (l, h) y), (slice_axis (l', h') x), (y0 + l), (x0 + l'). cbn [slice_axis name size scale fst snd].
  repeat split; try assumption; try lia. unfold slice_map. cbn [points]. rewrite P. unfold zip_with. cbn [combine map fst snd].
  now rewrite !sliced_points by assumption.
Qed.
(** Saving and loading *)
Lemma load_two s y x : nav s = [y; x] -> 2 <= size y -> 2 <= size x ->
  nav (read (write s)) = [Axis "y" (size y) (scale y) 0 um; Axis "x" (size x) (scale x) 0 um].
Proof.
  intros N Hy Hx. unfold write, shape_scale. rewrite N. unfold read. cbn [nav n_rows n_columns step_y step_x].
  destruct (Nat.eqb_spec (size y) 1); [lia|]. destruct (Nat.eqb_spec (size x) 1); [lia|]. reflexivity.
Qed.
Lemma load_map s : xmap (read (write s)) = Some (saved_map s).
Proof. unfold write. destruct (shape_scale s) as [[ny nx] [dy dx]]. reflexivity. Qed.
Lemma saved_compatible s m : xmap s = Some m -> fst (compatible s m) = true -> saved_map s = m.
Proof. intros M C. unfold saved_map. destruct (shape_scale s) as [[ny nx] [dy dx]]. now rewrite M, C. Qed.
Lemma saved_incompatible s m : xmap s = Some m -> fst (compatible s m) = false -> contents (saved_map s) = empty_contents.
Proof. intros M C. unfold saved_map. destruct (shape_scale s) as [[ny nx] [dy dx]]. now rewrite M, C. Qed.
Lemma load_px s : px_size (read (write s)) = px_size s /\ scale (sig_x (read (write s))) = px_size s /\ scale (sig_y (read (write s))) = px_size s.
Proof. unfold write. destruct (shape_scale s) as [[ny nx] [dy dx]]. repeat split. Qed.
Lemma load_fits s m : fits s m -> xmap s = Some m -> several_points s -> xmap (read (write s)) = Some m /\ fits (read (write s)) m.
Proof.
  intros F M S. pose proof (fits_accepted _ _ F) as A. destruct F as (y & x & y0 & x0 & N & Ny & Nx & P & D & Hy & Hx).
  unfold several_points in S. rewrite N in S. inversion S as [|? ? Sy S']; subst. inversion S' as [|? ? Sx _]; subst.
  rewrite load_map, (saved_compatible _ _ M) by (unfold accepted_silently in A; now rewrite A). split; [reflexivity|].
  pose proof (load_two _ _ _ N Sy Sx) as L. eexists _, _, y0, x0. rewrite L. repeat split; try eassumption; cbn; assumption.
Qed.
Lemma compatible_nav s s' m : nav s = nav s' -> compatible s m = compatible s' m.
Proof. intros E. unfold compatible. now rewrite E. Qed.
Lemma fits_nav s s' m : nav s = nav s' -> fits s m -> fits s' m.
Proof. intros E (y & x & y0 & x0 & N & F). exists y, x, y0, x0. now rewrite <- E. Qed.
Lemma index_step c s : map_axes s -> several_points s ->
  exists s', step (Index c) s = Some s' /\ nav s' = nav s /\ sig_y s' = sig_y s /\ sig_x s' = sig_x s /\ px_size s' = px_size s
    /\ xmap s' = Some (index c s) /\ fits s' (index c s).
Proof.
  intros A B. pose proof (index_fits c s A B) as F. cbn [step]. unfold set_xmap. rewrite (fits_accepted _ _ F).
  eexists. split; [reflexivity|]. cbn [nav sig_y sig_x px_size xmap]. repeat split. now apply (fits_nav s).
Qed.
(** Grids *)
Definition idx_of (g n : nat) : list nat := map (fun i => Z.to_nat (grid_index g n i)) (seq 0 (count g n)).
Lemma grid_two g s s' y x : nav s = [y; x] -> extract_grid g s = Some s' ->
  exists g0 g1, g = [g0; g1] /\ 1 <= count g0 (size y) /\ 1 <= count g1 (size x) /\ 1 <= size y /\ 1 <= size x
    /\ nav s' = [grid_axis g0 (idx_of g0 (size y)) y; grid_axis g1 (idx_of g1 (size x)) x]
    /\ xmap s' = option_map (fun m => CMap (zip_with chosen [idx_of g0 (size y); idx_of g1 (size x)] (points m)) (steps m) (scan_unit m) (contents m)) (xmap s)
    /\ sig_y s' = sig_y s /\ sig_x s' = sig_x s /\ px_size s' = px_size s.
Proof.
  intros N E. unfold extract_grid in E. destruct (negb _ || _)%bool eqn:B in E; [discriminate|]. rewrite N in *.
  destruct g as [|g0 [|g1 [|? ?]]]; try discriminate B. clear B. exists g0, g1. unfold zip_with in E. cbn [combine map fst snd] in E.
  rewrite !grid_indices_1d_eq in E.
  destruct (Nat.eqb_spec (size y) 0); [discriminate|]. destruct (Nat.eqb_spec (count g0 (size y)) 0); [discriminate|].
  destruct (Nat.eqb_spec (size x) 0); [discriminate|]. destruct (Nat.eqb_spec (count g1 (size x)) 0); [discriminate|].
  cbn [option_map sequence] in E. injection E as <-. cbn [nav xmap sig_y sig_x px_size]. unfold idx_of. rewrite !map_map.
  repeat split; try lia.
Qed.
Lemma idx_length g n : length (idx_of g n) = count g n.
Proof. unfold idx_of. now rewrite map_length, seq_length. Qed.
Lemma idx_nth g n i : i < count g n -> nth_error (idx_of g n) i = Some (Z.to_nat (grid_index g n i)).
Proof. intros H. unfold idx_of. rewrite nth_error_map, nth_error_seq by lia. reflexivity. Qed.
Lemma idx_value g n i : 1 <= n -> i < count g n -> Z.to_nat (grid_index g n i) = Z.to_nat (grid_index g n 0) + i * spacing g n.
Proof.
  intros H Hi. pose proof (grid_index_inside g n i H Hi) as A. pose proof (grid_index_inside g n 0 H ltac:(lia)) as B.
  assert (E : grid_index g n i = (grid_index g n 0 + Z.of_nat (i * spacing g n))%Z) by (unfold grid_index; lia).
  rewrite E. lia.
Qed.
Lemma idx_inside g n i : 1 <= n -> i < count g n -> Z.to_nat (grid_index g n i) < n.
Proof. intros H Hi. pose proof (grid_index_inside g n i H Hi). lia. Qed.
Lemma chosen_nth g n a i : 1 <= n -> i < count g n ->
  nth_error (chosen (idx_of g n) (seq a n)) i = Some (a + (Z.to_nat (grid_index g n 0) + i * spacing g n)).
Proof.
  intros H Hi. unfold chosen. rewrite nth_error_map, idx_nth by exact Hi. cbn [option_map].
  rewrite seq_nth by now apply idx_inside. now rewrite idx_value.
Qed.
Lemma chosen_length g n p : length (chosen (idx_of g n) p) = count g n.
Proof. unfold chosen. now rewrite map_length, idx_length. Qed.
Lemma last_nth_error {A} (l : list A) d z : nth_error l (length l - 1) = Some z -> last l d = z.
Proof.
  destruct l as [|a l] using rev_ind; [discriminate|]. rewrite app_length, last_last. cbn [length].
  rewrite nth_error_app2 by lia. replace (length l + 1 - 1 - length l) with 0 by lia. cbn. congruence.
Qed.
Lemma chosen_box g n a : 1 <= n -> 1 <= count g n -> box (chosen (idx_of g n) (seq a n)) = (count g n - 1) * spacing g n + 1.
Proof.
  intros H Hc. pose proof (chosen_nth g n a 0 H ltac:(lia)) as F. pose proof (chosen_nth g n a (count g n - 1) H ltac:(lia)) as L.
  unfold box. destruct (chosen (idx_of g n) (seq a n)) as [|b l] eqn:E; [discriminate|]. cbn [nth_error] in F. injection F as F.
  rewrite <- E in L |- *. rewrite (last_nth_error _ b _ (eq_trans (f_equal (fun k => nth_error _ (k - 1)) (chosen_length g n (seq a n))) L)). subst b. generalize (Z.to_nat (grid_index g n 0)), ((count g n - 1) * spacing g n). intros p q. clear. lia.
Qed.
