(** Regions of interest in Bruker files (property C32). *)
From Coq Require Import List Arith ZArith Bool Lia Sorted Permutation.
From Verif Require Import Model.Binary Model.Sorting Model.BrukerRoi Proofs.BinaryProofs Proofs.SortingProofs Proofs.ListLemmas.
Import ListNotations.
Local Open Scope Z_scope.

(** Beam indices of a complete rectangle of ny rows from y0 on and nx columns from x0 on, each visited once, in any
    order. *)
Definition full_rectangle (y0 x0 : Z) (ny nx : nat) (iy ix : list Z) : Prop :=
  (1 <= ny /\ 1 <= nx)%nat /\ length iy = length ix /\ NoDup (combine iy ix) /\
  forall y x, In (y, x) (combine iy ix) <-> y0 <= y < y0 + Z.of_nat ny /\ x0 <= x < x0 + Z.of_nat nx.

Lemma combine_fst {A B} (l : list A) (l' : list B) : length l = length l' -> map fst (combine l l') = l.
Proof. revert l'. induction l as [|x l IH]; intros [|y l'] L; cbn in *; try discriminate; [reflexivity|]. f_equal. apply IH. lia. Qed.
Lemma combine_snd {A B} (l : list A) (l' : list B) : length l = length l' -> map snd (combine l l') = l'.
Proof. revert l'. induction l as [|x l IH]; intros [|y l'] L; cbn in *; try discriminate; [reflexivity|]. f_equal. apply IH. lia. Qed.

(** The points of a rectangle. *)
Definition points (y0 x0 : Z) (ny nx : nat) : list (Z * Z) := list_prod (range y0 ny) (range x0 nx).
Lemma points_in y0 x0 ny nx y x : In (y, x) (points y0 x0 ny nx) <-> y0 <= y < y0 + Z.of_nat ny /\ x0 <= x < x0 + Z.of_nat nx.
Proof. unfold points. rewrite in_prod_iff, !range_in. reflexivity. Qed.
Lemma range_nodup a n : NoDup (range a n). Proof. apply sorted_nodup, range_sorted. Qed.
Lemma prod_nodup {A B} (l : list A) (l' : list B) : NoDup l -> NoDup l' -> NoDup (list_prod l l').
Proof.
  intros N N'. induction l as [|a l IH]; [constructor|]. inversion N as [|? ? NI N2]; subst. cbn.
  assert (D : forall p q, NoDup (map (fun y : B => (a, y)) p) -> NoDup q -> (forall z, In z q -> fst z <> a) -> NoDup (map (fun y => (a, y)) p ++ q)).
  { induction p as [|b p IP]; intros q HP HQ D; [exact HQ|]. cbn in *. inversion HP as [|? ? HN HP2]; subst. constructor; [|apply IP; assumption].
    rewrite in_app_iff. intros [I|I]; [contradiction|]. apply (D _ I). reflexivity. }
  apply D; [apply FinFun.Injective_map_NoDup; [intros x y E; congruence|exact N']|apply IH; exact N2|].
  intros [p q] I E. cbn in E. subst p. apply in_prod_iff in I. tauto.
Qed.
Lemma points_perm y0 x0 ny nx iy ix : full_rectangle y0 x0 ny nx iy ix -> Permutation (combine iy ix) (points y0 x0 ny nx).
Proof.
  intros [_ [_ [N R]]]. apply NoDup_Permutation; [exact N|apply prod_nodup; apply range_nodup|]. intros [y x]. rewrite R, points_in. reflexivity.
Qed.
Lemma points_length y0 x0 ny nx : length (points y0 x0 ny nx) = (ny * nx)%nat.
Proof. unfold points. rewrite prod_length, !range_length. reflexivity. Qed.

Lemma count_perm l l' x : Permutation l l' -> count l x = count l' x.
Proof. intros P. unfold count. f_equal. apply Permutation_count_occ. exact P. Qed.
Lemma count_app l l' x : count (l ++ l') x = count l x + count l' x.
Proof. unfold count. rewrite count_occ_app. lia. Qed.
Lemma count_repeat a n x : count (repeat a n) x = if Z.eqb a x then Z.of_nat n else 0.
Proof.
  unfold count. destruct (Z.eqb_spec a x) as [->|NE].
  - rewrite count_occ_repeat_eq by reflexivity. reflexivity.
  - rewrite count_occ_repeat_neq by congruence. reflexivity.
Qed.
Lemma count_unique l x : NoDup l -> count l x = if in_dec Z.eq_dec x l then 1 else 0.
Proof.
  intros N. unfold count. destruct (in_dec Z.eq_dec x l) as [I|NI].
  - rewrite (proj1 (NoDup_count_occ' Z.eq_dec l) N x I). reflexivity.
  - rewrite (proj1 (count_occ_not_In Z.eq_dec l x) NI). reflexivity.
Qed.
Lemma map_fst_prod (l l' : list Z) : map fst (list_prod l l') = flat_map (fun a => repeat a (length l')) l.
Proof.
  induction l as [|a l IH]; [reflexivity|]. cbn. rewrite map_app, IH, map_map. f_equal. cbn. clear. induction l'; cbn; congruence.
Qed.
Lemma map_snd_prod (l l' : list Z) : map snd (list_prod l l') = flat_map (fun _ => l') l.
Proof.
  induction l as [|a l IH]; [reflexivity|]. cbn. rewrite map_app, IH, map_map. f_equal. apply map_id.
Qed.
Lemma count_flat_repeat n l x : count (flat_map (fun a => repeat a n) l) x = Z.of_nat n * count l x.
Proof.
  induction l as [|a l IH]; [unfold count; cbn; lia|]. cbn [flat_map]. rewrite count_app, count_repeat, IH. unfold count. cbn [count_occ].
  destruct (Z.eq_dec a x) as [->|NE]; [rewrite Z.eqb_refl; lia|]. destruct (Z.eqb_spec a x); [congruence|]. lia.
Qed.
Lemma count_flat_const (l l' : list Z) x : count (flat_map (fun _ => l') l) x = Z.of_nat (length l) * count l' x.
Proof. induction l as [|a l IH]; [unfold count; cbn; lia|]. cbn [flat_map length]. rewrite count_app, IH. lia. Qed.

Section Rectangle.
Variables (y0 x0 : Z) (ny nx : nat) (iy ix : list Z).
Hypothesis F : full_rectangle y0 x0 ny nx iy ix.

Lemma rows_in y : In y iy <-> y0 <= y < y0 + Z.of_nat ny.
Proof using F.
  destruct F as [[NY NX] [L [_ R]]]. rewrite <- (combine_fst iy ix L) at 1. rewrite in_map_iff. split.
  - intros [[a b] [<- I]]. apply R in I. cbn. tauto.
  - intros H. exists (y, x0). split; [reflexivity|]. apply R. lia.
Qed.
Lemma cols_in x : In x ix <-> x0 <= x < x0 + Z.of_nat nx.
Proof using F.
  destruct F as [[NY NX] [L [_ R]]]. rewrite <- (combine_snd iy ix L) at 1. rewrite in_map_iff. split.
  - intros [[a b] [<- I]]. apply R in I. cbn. tauto.
  - intros H. exists (y0, x). split; [reflexivity|]. apply R. lia.
Qed.
Lemma rows_unique : unique iy = range y0 ny.
Proof using F. apply unique_eq; [apply range_sorted|]. intros a. rewrite range_in. apply rows_in. Qed.
Lemma cols_unique : unique ix = range x0 nx.
Proof using F. apply unique_eq; [apply range_sorted|]. intros a. rewrite range_in. apply cols_in. Qed.
Lemma rows_counts y : In y iy -> count iy y = Z.of_nat nx.
Proof using F.
  intros I. destruct F as [_ [L _]]. rewrite <- (combine_fst iy ix L). rewrite (count_perm _ _ y (Permutation_map fst (points_perm _ _ _ _ _ _ F))).
  unfold points. rewrite map_fst_prod, count_flat_repeat, range_length, count_unique by apply range_nodup.
  destruct (in_dec Z.eq_dec y (range y0 ny)) as [_|NI]; [lia|]. exfalso. apply NI. apply range_in, rows_in. exact I.
Qed.
Lemma cols_counts x : In x ix -> count ix x = Z.of_nat ny.
Proof using F.
  intros I. destruct F as [_ [L _]]. rewrite <- (combine_snd iy ix L). rewrite (count_perm _ _ x (Permutation_map snd (points_perm _ _ _ _ _ _ F))).
  unfold points. rewrite map_snd_prod, count_flat_const, range_length, count_unique by apply range_nodup.
  destruct (in_dec Z.eq_dec x (range x0 nx)) as [_|NI]; [lia|]. exfalso. apply NI. apply range_in, cols_in. exact I.
Qed.
Lemma same_counts l n : (exists a, In a l) -> (forall a, In a l -> count l a = n) -> unique (unique_counts l) = [n].
Proof using.
  intros [a0 I0] H. apply unique_eq; [repeat constructor|]. intros a. unfold unique_counts. rewrite in_map_iff. split.
  - intros [b [<- I]]. rewrite unique_in in I. rewrite H by exact I. left. reflexivity.
  - intros [<-|[]]. exists a0. split; [apply H; exact I0|apply unique_in; exact I0].
Qed.
Lemma rectangle_extent : minimum iy = Some y0 /\ maximum iy = Some (y0 + Z.of_nat ny - 1) /\ minimum ix = Some x0 /\ maximum ix = Some (x0 + Z.of_nat nx - 1).
Proof using F.
  destruct F as [[NY NX] _]. repeat split; [apply minimum_spec|apply maximum_spec|apply minimum_spec|apply maximum_spec];
    split; rewrite ?rows_in, ?cols_in; try lia; intros a I; rewrite ?rows_in, ?cols_in in I; lia.
Qed.
Lemma rectangle_roi : roi_is_rectangular iy ix = Some (ny, nx, true).
Proof using F.
  unfold roi_is_rectangular. destruct rectangle_extent as [E1 [E2 [E3 E4]]]. rewrite E1, E2, E3, E4. cbn [bind].
  destruct F as [[NY NX] _].
  rewrite (same_counts iy (Z.of_nat nx)); [|exists y0; apply rows_in; lia|intros a I; apply rows_counts; exact I].
  rewrite (same_counts ix (Z.of_nat ny)); [|exists x0; apply cols_in; lia|intros a I; apply cols_counts; exact I].
  rewrite rows_unique, cols_unique, !diff_range. cbn [andb length Nat.eqb]. f_equal. f_equal. f_equal; lia.
Qed.

Definition keys := map (fun p : Z * Z => (fst p - y0) * Z.of_nat nx + (snd p - x0)) (combine iy ix).
Lemma keys_length : length keys = (ny * nx)%nat.
Proof using F. unfold keys. rewrite map_length, (Permutation_length (points_perm _ _ _ _ _ _ F)). apply points_length. Qed.
Lemma keys_nth k y x : nth_error iy k = Some y -> nth_error ix k = Some x -> nth_error keys k = Some ((y - y0) * Z.of_nat nx + (x - x0)).
Proof using.
  clear F. intros Y X. unfold keys. rewrite nth_error_map. replace (nth_error (combine iy ix) k) with (Some (y, x)); [reflexivity|].
  symmetry. revert iy ix Y X. induction k as [|k IH]; intros [|a l] [|b l'] Y X; cbn in *; try discriminate; [congruence|]. apply IH; assumption.
Qed.
Lemma keys_ok : NoDup keys /\ forall a, In a keys <-> 0 <= a < Z.of_nat (length keys).
Proof using F.
  rewrite keys_length. destruct F as [[NY NX] [L [N R]]]. split.
  - unfold keys. assert (D : forall l : list (Z * Z), (forall p, In p l -> In p (combine iy ix)) -> NoDup l -> NoDup (map (fun p : Z * Z => (fst p - y0) * Z.of_nat nx + (snd p - x0)) l)).
    { induction l as [|p l IH]; intros S NL; [constructor|]. inversion NL as [|? ? NI NL2]; subst. cbn [map]. constructor; [|apply IH; [intros; apply S; right; assumption|exact NL2]].
      intros I. apply in_map_iff in I. destruct I as [q [E I]]. apply NI. replace p with q; [exact I|].
      destruct p as [y x]. destruct q as [y' x']. pose proof (proj1 (R y x) (S _ (or_introl eq_refl))). pose proof (proj1 (R y' x') (S _ (or_intror I))). cbn [fst snd] in E.
      assert (EX : (x' - x0) = (x - x0)).
      { pose proof (Z.mod_unique ((y - y0) * Z.of_nat nx + (x - x0)) (Z.of_nat nx) (y - y0) (x - x0)). 
        pose proof (Z.mod_unique ((y' - y0) * Z.of_nat nx + (x' - x0)) (Z.of_nat nx) (y' - y0) (x' - x0)). rewrite E in *. lia. }
      assert (EY : y' = y) by nia. f_equal; lia. }
    apply D; auto.
  - intros a. unfold keys. rewrite in_map_iff. split.
    + intros [[y x] [<- I]]. apply R in I. cbn [fst snd]. nia.
    + intros H. exists (y0 + a / Z.of_nat nx, x0 + a mod Z.of_nat nx). split.
      * cbn [fst snd]. pose proof (Z.div_mod a (Z.of_nat nx) ltac:(lia)). lia.
      * apply R. pose proof (Z.mod_pos_bound a (Z.of_nat nx) ltac:(lia)). assert (0 <= a / Z.of_nat nx < Z.of_nat ny); [|lia].
        split; [apply Z.div_pos; lia|apply Z.div_lt_upper_bound; nia].
Qed.
End Rectangle.

Lemma take_all_spec {A} (l : list A) idx : (forall i, In i idx -> (i < length l)%nat) ->
  exists r, take_all l idx = Some r /\ length r = length idx /\ forall j, nth_error r j = match nth_error idx j with Some i => nth_error l i | None => None end.
Proof.
  induction idx as [|i idx IH]; intros H; [exists []; split; [reflexivity|]; split; [reflexivity|intros []; reflexivity]|].
  destruct IH as [r [E [L N]]]; [intros; apply H; right; assumption|]. cbn. destruct (nth_error l i) as [a|] eqn:EA; [|apply nth_error_None in EA; specialize (H i (or_introl eq_refl)); lia].
  cbn [bind]. rewrite E. cbn [bind]. exists (a :: r). split; [reflexivity|]. split; [cbn; lia|]. intros [|j]; cbn; [symmetry; exact EA|apply N].
Qed.
Lemma concat_nth {A} (l : list (list A)) m : (forall p, In p l -> length p = m) -> forall k p i, nth_error l k = Some p -> (i < m)%nat ->
  nth_error (concat l) (k * m + i) = nth_error p i.
Proof.
  induction l as [|q l IH]; intros H k p i K I; [destruct k; discriminate|]. cbn [concat]. assert (LQ : length q = m) by (apply H; left; reflexivity).
  destruct k as [|k]; cbn in K.
  - injection K as ->. rewrite nth_error_app1 by lia. reflexivity.
  - rewrite nth_error_app2 by lia. replace (S k * m + i - length q)%nat with (k * m + i)%nat by lia. apply IH; [intros; apply H; right; assumption|exact K|exact I].
Qed.
Lemma concat_length_const {A} (l : list (list A)) m : (forall p, In p l -> length p = m) -> length (concat l) = (length l * m)%nat.
Proof. induction l as [|q l IH]; intros H; [reflexivity|]. cbn. rewrite app_length, (H q (or_introl eq_refl)), IH by (intros; apply H; right; assumption). lia. Qed.

(** A pattern acquired at a beam position of a complete rectangle is at the row and column of that position in the
    map, whatever the order in which the positions were visited. *)
Theorem C32_pattern_positions y0 x0 ny nx iy ix nrows ncols sy sx patterns :
  full_rectangle y0 x0 ny nx iy ix -> length patterns = length iy -> (forall p, In p patterns -> length p = (sy * sx)%nat) ->
  exists a, (let? m := map_of (Some (iy, ix)) nrows ncols in let '(ny', nx', indices) := m in get_data patterns ny' nx' sy sx indices) = Some a /\
    shape a = squeeze_shape [ny; nx; sy; sx] /\
    forall k y x p r c, nth_error iy k = Some y -> nth_error ix k = Some x -> nth_error patterns k = Some p -> (r < sy)%nat -> (c < sx)%nat ->
      at_ a (squeeze_index [ny; nx; sy; sx] [Z.to_nat (y - y0); Z.to_nat (x - x0); r; c]) = nth_error p (r * sx + c).
Proof.
  intros F LP PP. destruct (rectangle_extent _ _ _ _ _ _ F) as [E1 [_ [E3 _]]]. unfold map_of. rewrite (rectangle_roi _ _ _ _ _ _ F). cbn [bind].
  pose proof F as [[NY NX] [L [_ R]]]. rewrite L, Nat.eqb_refl, E1, E3. cbn [negb orb bind]. fold (keys y0 x0 nx iy ix).
  destruct (keys_ok _ _ _ _ _ _ F) as [KN KR]. pose proof (keys_length _ _ _ _ _ _ F) as KL. set (ks := keys y0 x0 nx iy ix) in *.
  assert (LI : length iy = (ny * nx)%nat).
  { rewrite <- KL. unfold ks, keys. rewrite map_length, combine_length. lia. }
  destruct (take_all_spec patterns (argsort ks)) as [data [TD [LD ND]]].
  { intros i I. apply (Permutation_in _ (Permutation_sym (argsort_perm ks))) in I. apply in_seq in I. lia. }
  unfold get_data. rewrite TD. cbn [bind].
  assert (PD : forall p, In p data -> length p = (sy * sx)%nat).
  { intros p I. apply In_nth_error in I. destruct I as [j J]. rewrite ND in J. destruct (nth_error (argsort ks) j) as [i|]; [|discriminate]. apply PP. eapply nth_error_In. exact J. }
  rewrite argsort_length, KL in LD. rewrite (concat_length_const _ _ PD), LD. replace (ny * nx * sy * sx)%nat with (ny * nx * (sy * sx))%nat by lia. rewrite Nat.eqb_refl.
  eexists. split; [reflexivity|]. split; [reflexivity|]. intros k y x p r c Y X P Hr Hc.
  assert (IN : In (y, x) (combine iy ix)).
  { clear - Y X. revert iy ix Y X. induction k as [|k IH]; intros [|a l] [|b l'] Y X; cbn in *; try discriminate; [left; congruence|right; apply IH; assumption]. }
  apply R in IN.
  assert (IS : in_shape [ny; nx; sy; sx] [Z.to_nat (y - y0); Z.to_nat (x - x0); r; c]) by (cbn; lia).
  match goal with |- at_ (squeeze ?a0) ?i = _ => change i with (squeeze_index (shape a0) [Z.to_nat (y - y0); Z.to_nat (x - x0); r; c]) end.
  rewrite at_squeeze by exact IS. unfold at_. cbn [shape elems ravel size_of fold_right].
  pose proof (keys_nth y0 x0 nx iy ix k y x Y X) as KK. fold ks in KK.
  assert (K : (k < length ks)%nat) by (apply nth_error_Some; congruence).
  pose proof (argsort_at ks k KN KR K) as AT. apply nth_error_nth with (d := 0) in KK. rewrite KK in AT.
  assert (DK : nth_error data (Z.to_nat ((y - y0) * Z.of_nat nx + (x - x0))) = Some p) by (rewrite ND, AT; exact P).
  rewrite <- (concat_nth data (sy * sx) PD _ p (r * sx + c) DK) by nia.
  f_equal. replace (Z.to_nat ((y - y0) * Z.of_nat nx + (x - x0))) with (Z.to_nat (y - y0) * nx + Z.to_nat (x - x0))%nat by nia. nia.
Qed.

(** Complete rectangles are accepted; regions with a row or column missing in between, or with rows or columns of
    different numbers of points, are refused. *)
Theorem C32_rectangle_accepted y0 x0 ny nx iy ix : full_rectangle y0 x0 ny nx iy ix -> roi_is_rectangular iy ix = Some (ny, nx, true).
Proof. apply rectangle_roi. Qed.

Lemma accepted_counts l : (length (unique (unique_counts l)) =? 1)%nat = true -> forall a b, In a l -> In b l -> count l a = count l b.
Proof.
  intros H a b A B. apply Nat.eqb_eq in H. destruct (unique (unique_counts l)) as [|n [|]] eqn:E; try discriminate.
  assert (G : forall c, In c l -> count l c = n).
  { intros c I. assert (J : In (count l c) (unique (unique_counts l))) by (apply unique_in; unfold unique_counts; apply in_map, unique_in; exact I).
    rewrite E in J. destruct J as [->|[]]. reflexivity. }
  rewrite !G by assumption. reflexivity.
Qed.
Lemma accepted_contiguous l : forallb (fun d => d =? 1) (diff (unique l)) = true -> forall a b c, In a l -> In b l -> a <= c <= b -> In c l.
Proof.
  intros H a b c A B C. apply diff_one_range in H. destruct (unique l) as [|x u] eqn:E.
  - exfalso. apply unique_in in A. rewrite E in A. destruct A.
  - apply unique_in in A. apply unique_in in B. rewrite E, H in A, B. apply range_in in A. apply range_in in B.
    apply unique_in. rewrite E, H. apply range_in. lia.
Qed.
Theorem C32_refused iy ix nrows ncols :
  (exists a b, In a iy /\ In b iy /\ count iy a <> count iy b) \/ (exists a b, In a ix /\ In b ix /\ count ix a <> count ix b) \/
  (exists a b c, In a iy /\ In b iy /\ a <= c <= b /\ ~ In c iy) \/ (exists a b c, In a ix /\ In b ix /\ a <= c <= b /\ ~ In c ix) ->
  map_of (Some (iy, ix)) nrows ncols = None.
Proof.
  intros H. unfold map_of, roi_is_rectangular.
  set (ok := _ && _). assert (OK : ok = false).
  { apply not_true_iff_false. intros T. unfold ok in T. rewrite !andb_true_iff in T. destruct T as [[[T1 T2] T3] T4].
    destruct H as [[a [b [A [B H]]]]|[[a [b [A [B H]]]]|[[a [b [c [A [B [C H]]]]]]|[a [b [c [A [B [C H]]]]]]]]].
    - apply H. apply accepted_counts; assumption.
    - apply H. apply accepted_counts; assumption.
    - apply H. apply (accepted_contiguous iy T1 a b c); assumption.
    - apply H. apply (accepted_contiguous ix T2 a b c); assumption. }
  rewrite OK. destruct (maximum iy); [|reflexivity]. destruct (minimum iy); [|reflexivity]. destruct (maximum ix); [|reflexivity]. destruct (minimum ix); reflexivity.
Qed.

(** If no beam position is visited twice and there are as many as points in the map found, they are a complete
    rectangle. *)
Theorem C32_accepted_is_rectangle_partial iy ix ny nx ok : roi_is_rectangular iy ix = Some (ny, nx, ok) -> length iy = length ix ->
  NoDup (combine iy ix) -> length iy = (ny * nx)%nat -> exists y0 x0, full_rectangle y0 x0 ny nx iy ix.
Proof.
  unfold roi_is_rectangular. set (okk := _ && _). clearbody okk. intros H L N LE.
  destruct (maximum iy) as [y1|] eqn:E1; [|discriminate]. destruct (minimum iy) as [y0|] eqn:E0; [|discriminate].
  destruct (maximum ix) as [x1|] eqn:E3; [|discriminate]. destruct (minimum ix) as [x0|] eqn:E2; [|discriminate]. cbn [bind] in H. injection H as HY HX _.
  apply maximum_spec in E1, E3. apply minimum_spec in E0, E2. destruct E1 as [I1 B1]. destruct E3 as [I3 B3]. destruct E0 as [I0 B0]. destruct E2 as [I2 B2].
  pose proof (B0 _ I1). pose proof (B2 _ I3). exists y0, x0.
  assert (INC : incl (combine iy ix) (points y0 x0 ny nx)).
  { intros [y x] I. apply points_in. pose proof (in_combine_l _ _ _ _ I) as IY. pose proof (in_combine_r _ _ _ _ I) as IX.
    specialize (B0 _ IY). specialize (B1 _ IY). specialize (B2 _ IX). specialize (B3 _ IX). lia. }
  split; [lia|]. split; [exact L|]. split; [exact N|]. intros y x. rewrite <- points_in. split; [apply INC|].
  apply (NoDup_length_incl N); [rewrite points_length, combine_length; lia|exact INC].
Qed.

(** Points on a diagonal are accepted, and their patterns are placed elsewhere. *)
Theorem C32_diagonal_refuted : let iy := [0; 1; 2] in let ix := [0; 1; 2] in let patterns := [[10; 11]; [20; 21]; [30; 31]] in
  roi_is_rectangular iy ix = Some (3, 3, true)%nat /\
  exists a, (let? m := map_of (Some (iy, ix)) 3 3 in let '(ny, nx, indices) := m in get_data patterns ny nx 1 2 indices) = Some a /\
    shape a = [3; 3; 1; 2]%nat /\ at_ a [1; 1; 0; 0]%nat = Some 0 /\ at_ a [0; 1; 0; 0]%nat = Some 20.
Proof. cbv zeta. split; [vm_compute; reflexivity|]. eexists. split; [vm_compute; reflexivity|]. split; [reflexivity|]. split; reflexivity. Qed.
(** Points visited twice are accepted too. *)
Theorem C32_points_twice_refuted : roi_is_rectangular [0; 0; 1; 1] [0; 0; 1; 1] = Some (2, 2, true)%nat.
Proof. vm_compute. reflexivity. Qed.

(** Projection centres stay in the order of acquisition: a pattern which is not visited in its place row by row has the
    projection centre of another one. *)
Theorem C32_projection_centres_refuted {PC} y0 x0 ny nx iy ix nrows ncols sy sx patterns (pcs : list PC) a pc :
  full_rectangle y0 x0 ny nx iy ix -> (2 <= ny * nx)%nat -> length pcs = length iy -> read_map (Some (iy, ix)) nrows ncols sy sx patterns pcs = Some (a, pc) ->
  fst pc = [ny; nx] /\
  forall k y x, NoDup pcs -> nth_error iy k = Some y -> nth_error ix k = Some x -> let j := (Z.to_nat (y - y0) * nx + Z.to_nat (x - x0))%nat in
    j <> k -> nth_error (snd pc) j <> nth_error pcs k.
Proof.
  intros F TWO LP. unfold read_map. destruct (map_of (Some (iy, ix)) nrows ncols) as [[[ny' nx'] indices]|] eqn:M; [|discriminate]. cbn [bind].
  assert (EN : ny' = ny /\ nx' = nx).
  { revert M. unfold map_of. rewrite (rectangle_roi _ _ _ _ _ _ F). cbn [bind]. destruct (negb true || _); [discriminate|].
    destruct (minimum iy); [|discriminate]. destruct (minimum ix); [|discriminate]. cbn [bind]. intros E. injection E as <- <- _. auto. }
  destruct EN as [-> ->]. destruct (get_data _ _ _ _ _ _) as [d|]; [|discriminate]. cbn [bind].
  unfold get_pcs. assert (LI : length pcs = (ny * nx)%nat).
  { rewrite LP. pose proof F as [_ [L _]]. rewrite <- (keys_length _ _ _ _ _ _ F). unfold keys. rewrite map_length, combine_length. lia. }
  rewrite LI, Nat.eqb_refl. destruct (Nat.ltb_spec 1 (ny * nx)); [|lia]. cbn [bind]. intros E. injection E as _ <-. split; [reflexivity|].
  intros k y x N Y X J E. apply J. cbn [snd] in E. symmetry in E. symmetry. apply (proj1 (NoDup_nth_error pcs) N); [|exact E].
  rewrite LP. apply nth_error_Some. congruence.
Qed.

(** ** Concrete cases *)
Example rectangle_2_3 : full_rectangle 5 7 2 3 [6; 5; 5; 6; 6; 5] [7; 8; 7; 9; 8; 9].
Proof.
  split; [lia|]. split; [reflexivity|]. split.
  - cbn. repeat constructor; cbn; intuition congruence.
  - intros y x. cbn. split; [intuition (try discriminate); repeat match goal with H : (_, _) = (_, _) |- _ => injection H as <- <- end; lia|].
    intros [Y X]. assert (YY : y = 5 \/ y = 6) by lia. assert (XX : x = 7 \/ x = 8 \/ x = 9) by lia.
    destruct YY as [->| ->]; destruct XX as [->|[->| ->]]; intuition.
Qed.
Example C32_pattern_positions_used : exists a pc, read_map (Some ([6; 5; 5; 6; 6; 5], [7; 8; 7; 9; 8; 9])) 10 10 1 1 [[1]; [2]; [3]; [4]; [5]; [6]] [11; 12; 13; 14; 15; 16]%nat = Some (a, pc) /\
  elems a = [3; 2; 6; 1; 5; 4] /\ shape a = [2; 3]%nat /\ pc = ([2; 3], [11; 12; 13; 14; 15; 16])%nat.
Proof. eexists. eexists. split; [vm_compute; reflexivity|]. repeat split. Qed.
Example C32_refused_used : map_of (Some ([0; 0; 1], [0; 1; 0])) 2 2 = None /\ map_of (Some ([0; 0; 2; 2], [0; 1; 0; 1])) 2 2 = None.
Proof. split; apply C32_refused; [left; exists 0, 1|right; right; left; exists 0, 2, 1]; cbn; intuition (try discriminate; try lia). Qed.

Print Assumptions C32_pattern_positions.
Print Assumptions C32_refused.
Print Assumptions C32_accepted_is_rectangle_partial.
