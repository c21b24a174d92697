(** Histories of operations on signals: property C48. *)
From Coq Require Import List Arith ZArith Reals Bool Lra Lia.
From Verif Require Import Model.Pattern Model.Intensity Model.MapOverlap Model.Downsample Model.SignalHeap
  Proofs.SignalHeapProofs Props.Downsample.
From Verif Require Model.Detector.
Import ListNotations.

(** A signal whose objects exist. *)
Definition alive (h : heap) (s : signal) : Prop := forall k, In k (refs s) -> k < next h.
(** Operations on intensities: rescaling, normalising, histogram equalisation, background removal;
    and filtering, averaging. *)
Definition on_intensities (op : operation) : Prop :=
  match op with Intensity _ | Blockwise _ => True | _ => False end.

(** ** One call with inplace=False *)

(** The signal is not changed. *)
Theorem C48_copy_leaves_signal op h s h' s' out :
  on_intensities op -> alive h s -> call op false h s = Some (h', s', out) ->
  s' = s /\ look_at h' s = look_at h s.
Proof.
  intros Hop Ha E. destruct op as [f|f|f|lo hi|lo hi]; try contradiction;
    unfold call in E; heap_simpl; injection E as <- <- <-; (split; [reflexivity|]);
    apply view_same; intros k Hk; specialize (Ha k Hk); puts; auto.
Qed.

(** What is returned looks exactly like the signal after the same call in place (data, detector,
    background, crystal map, shape, data type and axes)... *)
Theorem C48_copy_returns_what_in_place_stores f h s :
  exists h1 o h2 s2, call (Intensity f) false h s = Some (h1, s, Some o)
    /\ call (Intensity f) true h s = Some (h2, s2, None) /\ look_at h1 o = look_at h2 s2.
Proof.
  do 4 eexists. split; [reflexivity|]. split; [reflexivity|].
  unfold look_at. heap_simpl. cbn [s_data s_det s_bg s_xmap s_shape s_dtype s_axes]. now rewrite !put_same.
Qed.
(** ... except for fft_filter() and average_neighbour_patterns(), which return a signal without the
    calibration of the axes; the rest is the same. *)
Theorem C48_blockwise_copy_partial f h s :
  exists h1 o h2 s2, call (Blockwise f) false h s = Some (h1, s, Some o)
    /\ call (Blockwise f) true h s = Some (h2, s2, None)
    /\ v_data (look_at h1 o) = v_data (look_at h2 s2) /\ v_det (look_at h1 o) = v_det (look_at h2 s2)
    /\ v_bg (look_at h1 o) = v_bg (look_at h2 s2) /\ v_xmap (look_at h1 o) = v_xmap (look_at h2 s2).
Proof.
  do 4 eexists. split; [reflexivity|]. split; [reflexivity|].
  unfold look_at. heap_simpl. cbn [s_data s_det s_bg s_xmap s_shape s_dtype s_axes v_data v_det v_bg v_xmap].
  now rewrite !put_same.
Qed.
Theorem C48_blockwise_copy_keeps_axes_refuted f h s h1 s1 o :
  call (Blockwise f) false h s = Some (h1, s1, Some o) -> s_axes s <> Default ->
  v_axes (look_at h1 o) <> v_axes (look_at h1 s1).
Proof.
  unfold call. heap_simpl. intros E H. injection E as <- <- <-. cbn. congruence.
Qed.

(** ** Histories *)

(** After a call with inplace=False, any sequence of calls on the returned signal, on signals made
    from it, and so on, leaves the original as it was, as long as these calls do not change a
    detector object: operations on intensities, in place or not, cropping of the detector, copies. *)
Theorem C48_later_changes_do_not_reach_the_original_partial op h s h' s' o program :
  on_intensities op -> alive h s -> call op false h s = Some (h', s', Some o) ->
  Forall (fun c => match c with
                   | Call i op' _ => i <> 0 /\ (on_intensities op' \/ exists lo hi, op' = CropRows lo hi)
                   | Copy i => i <> 0
                   end) program ->
  let final := run program (h', [s; o]) in
  look_at (fst final) s = look_at h s /\ nth_error (snd final) 0 = Some s.
Proof.
  intros Hop Ha E Hp. destruct (C48_copy_leaves_signal _ _ _ _ _ _ Hop Ha E) as [-> Hs].
  cbv zeta. rewrite <- Hs.
  assert (Hh : harmless op = true) by (destruct op; try contradiction; reflexivity).
  destruct (call_harmless _ _ _ _ _ _ _ E Hh) as (Hn & _ & _ & Ho).
  apply (apart_run s program (h', [s; o])).
  - split; cbn [fst snd].
    + intros k Hk. specialize (Ha k Hk). lia.
    + split; [reflexivity|]. intros o' [<-|[]]. split; [lia|].
      assert (s_data s < next h) by (apply Ha; unfold refs; simpl; auto). lia.
  - eapply Forall_impl; [|exact Hp]. intros [i op' ip|i] H; [|exact H]. destruct H as [Hi H]. split; [exact Hi|].
    destruct H as [H|(lo & hi & ->)]; [|reflexivity]. destruct op'; try contradiction; reflexivity.
Qed.

(** Downsampling the returned signal in place changes the detector of the original... *)
Theorem C48_downsampling_the_copy_refuted g f h s h' s' o h'' o' out :
  call (Intensity g) false h s = Some (h', s', Some o) ->
  call (Downsample f) true h' o = Some (h'', o', out) -> 1 <= fst (s_shape s) ->
  Detector.d_ny (v_det (look_at h'' s)) <> Z.of_nat (fst (s_shape s)).
Proof.
  intros E E2 Hy. unfold call in E. heap_simpl. injection E as <- <- <-.
  destruct s as [sd st sb sx [ny nx] sty sa]. unfold call in E2.
  cbn [s_data s_det s_bg s_xmap s_shape s_dtype s_axes fst snd] in *.
  destruct (Nat.leb_spec f 1); [discriminate|]. destruct (negb _); [discriminate|].
  assert (Hlt : ny / f < ny) by (apply Nat.div_lt; lia).
  destruct sb as [b|]; heap_simpl; injection E2 as <- <- <-; unfold look_at; heap_simpl;
    cbn [s_data s_det s_bg s_xmap s_shape s_dtype s_axes v_data v_det v_bg v_xmap option_map];
    rewrite !put_same; unfold downsample_detector; cbn [Detector.d_ny]; lia.
Qed.
(** ... and cropping it along a navigation axis cuts the PCs of the original, which then no longer fit
    its map. *)
Theorem C48_cropping_the_map_of_the_copy_refuted g lo hi h s h' s' o h'' o' out n m :
  call (Intensity g) false h s = Some (h', s', Some o) ->
  call (CropMapRows lo hi) true h' o = Some (h'', o', out) ->
  Detector.nav_shape (Detector.d_pc (v_det (look_at h s))) = [n; m] -> nrows (g (v_data (look_at h s))) = n ->
  hi - lo < n ->
  Detector.nav_shape (Detector.d_pc (v_det (look_at h'' s))) = [hi - lo; m].
Proof.
  intros E E2 Hn Hg Hlt. unfold call in E. heap_simpl. injection E as <- <- <-.
  destruct s as [sd st sb sx [ny nx] sty sa]. unfold call in E2.
  cbn [s_data s_det s_bg s_xmap s_shape s_dtype s_axes look_at v_det v_data fst snd] in *. heap_simpl.
  rewrite put_same in E2.
  destruct (negb ((lo <? hi) && (hi <=? nrows (g (data_at h sd))))) eqn:Eb; [discriminate|].
  apply negb_false_iff, andb_true_iff in Eb. destruct Eb as [B1 B2]. apply Nat.ltb_lt in B1. apply Nat.leb_le in B2.
  assert (R : Detector.nav_shape (slice_pcs lo hi (Detector.d_pc (det_at h st))) = [hi - lo; m]).
  { unfold slice_pcs. rewrite Hn.
    assert (Hm : Nat.min hi n - lo = hi - lo) by lia.
    destruct n as [|[|n]]; cbn [Detector.nav_shape]; rewrite Hm; reflexivity. }
  destruct sx as [b|]; heap_simpl; injection E2 as <- <- <-; heap_simpl;
    cbn [s_data s_det s_bg s_xmap s_shape s_dtype s_axes]; rewrite !put_same; unfold Detector.with_pc; cbn [Detector.d_pc]; exact R.
Qed.

(** Cropping in place: refused without rows to keep, or with rows the patterns or the map do not have. *)
Theorem C48_crop_refused lo hi h s :
  (call (CropMapRows lo hi) true h s = None <-> ~ (lo < hi <= nrows (v_data (look_at h s)))) /\
  (~ (lo < hi <= fst (s_shape s)) -> call (CropRows lo hi) true h s = None).
Proof.
  destruct s as [sd st sb sx [ny nx] sty sa]. unfold call. cbn [s_data s_det s_bg s_xmap s_shape s_dtype s_axes look_at v_data fst]. split.
  - destruct (Nat.ltb_spec lo hi); destruct (Nat.leb_spec hi (nrows (data_at h sd))); cbn [andb negb];
      (split; [|try reflexivity]); intros X; try lia; try reflexivity; destruct sx; heap_simpl; discriminate X.
  - intros X. destruct (Nat.ltb_spec lo hi); destruct (Nat.leb_spec hi ny); cbn [andb negb]; try reflexivity. lia.
Qed.
(** The PCs kept are those of the map points kept. *)
Theorem C48_crop_map_keeps_pcs lo hi h s h' s' out n m : call (CropMapRows lo hi) true h s = Some (h', s', out) ->
  let pc := Detector.d_pc (v_det (look_at h s)) in let pc' := Detector.d_pc (v_det (look_at h' s')) in
  nrows (v_data (look_at h s)) = n ->
  (Detector.nav_shape pc = [n; m] -> Detector.nav_shape pc' = [hi - lo; m] /\
     (length (Detector.pcs pc) = n * m -> length (Detector.pcs pc') = (hi - lo) * m) /\
     forall i j, i < hi - lo -> j < m -> nth_error (Detector.pcs pc') (i * m + j) = nth_error (Detector.pcs pc) ((lo + i) * m + j)) /\
  (Detector.nav_shape pc = [n] -> n <> 1 -> Detector.nav_shape pc' = [hi - lo] /\ (length (Detector.pcs pc) = n -> length (Detector.pcs pc') = hi - lo) /\
     forall i, i < hi - lo -> nth_error (Detector.pcs pc') i = nth_error (Detector.pcs pc) (lo + i)).
Proof.
  intros E pc pc' Hn. assert (B : lo < hi <= n).
  { destruct (C48_crop_refused lo hi h s) as [C _]. rewrite Hn in C. destruct (le_lt_dec hi lo); [exfalso; rewrite (proj2 C) in E by lia; discriminate|].
    destruct (le_lt_dec hi n); [lia|]. exfalso; rewrite (proj2 C) in E by lia; discriminate. }
  assert (P : pc' = slice_pcs lo hi pc).
  { unfold pc', pc. destruct s as [sd st sb sx [ny nx] sty sa]. unfold call in E. cbn [s_data s_det s_bg s_xmap s_shape s_dtype s_axes look_at v_det v_data fst snd] in *.
    destruct (negb _); [discriminate|]. destruct sx as [b|]; heap_simpl; injection E as <- <- <-; heap_simpl;
      cbn [s_data s_det s_bg s_xmap s_shape s_dtype s_axes]; rewrite !put_same; unfold Detector.with_pc; cbn [Detector.d_pc]; reflexivity. }
  assert (NF : forall {A} k (l : list A) i, i < k -> nth_error (firstn k l) i = nth_error l i).
  { clear. induction k as [|k IH]; intros l i H; [lia|]. destruct l as [|x l]; [destruct i; reflexivity|]. destruct i as [|i]; [reflexivity|]. cbn. apply IH. lia. }
  assert (NS : forall {A} k (l : list A) i, nth_error (skipn k l) i = nth_error l (k + i)).
  { clear. induction k as [|k IH]; intros l i; [reflexivity|]. destruct l as [|x l]; [destruct i; reflexivity|]. cbn. apply IH. }
  rewrite P. clear P. assert (Hm : Nat.min hi n - lo = hi - lo) by lia. split.
  - intros Q. unfold slice_pcs. rewrite Q. destruct n as [|[|n]]; cbn [Detector.nav_shape Detector.pcs]; rewrite Hm; (split; [reflexivity|]);
      (split; [intros Ln; rewrite firstn_length, skipn_length, Ln; nia|]); intros i j Hi Hj; rewrite NF, NS by nia; f_equal; lia.
  - intros Q N1. unfold slice_pcs. rewrite Q. destruct n as [|[|n]]; [lia|lia|]. cbn [Detector.nav_shape Detector.pcs]. rewrite Hm. split; [reflexivity|].
    split; [intros Ln; rewrite firstn_length, skipn_length, Ln; lia|]. intros i Hi. rewrite NF, NS by lia. reflexivity.
Qed.

(** A deep copy is isolated from the original: any sequence of any calls on the copy and on signals
    made from it leaves the original as it was. *)
Theorem C48_deepcopy_isolates h s program :
  alive h s ->
  Forall (fun c => match c with Call i _ _ => i <> 0 | Copy i => i <> 0 end) program ->
  let (h', o) := deepcopy h s in
  look_at h' o = look_at h s
  /\ let final := run program (h', [s; o]) in
     look_at (fst final) s = look_at h s /\ nth_error (snd final) 0 = Some s.
Proof.
  intros Ha Hp. destruct (deepcopy h s) as [h' o] eqn:E.
  destruct (deepcopy_frame _ _ _ _ E) as (Hn & Hsame & Ho).
  assert (Hs : look_at h' s = look_at h s).
  { apply view_same. intros k Hk. apply Hsame; [now apply Ha|]. simpl. auto. }
  split.
  - clear - E Ha. destruct s as [sd st sb sx ss sty sa]. unfold deepcopy in E.
    unfold alive, refs in Ha. cbn [s_data s_det s_bg s_xmap s_shape s_dtype s_axes] in *.
    destruct sb as [b|], sx as [x|]; heap_simpl; injection E as <- <-; unfold look_at; heap_simpl;
      cbn [s_data s_det s_bg s_xmap s_shape s_dtype s_axes option_map]; rewrite !put_same; reflexivity.
  - cbv zeta. rewrite <- Hs. apply (isolated_run s program (h', [s; o])).
    + split; cbn [fst snd].
      * intros k Hk. specialize (Ha k Hk). lia.
      * split; [reflexivity|]. intros o' [<-|[]] k Hk. destruct (Ho k Hk) as [[]|Hr]. split; [lia|].
        intros Hin. specialize (Ha k Hin). lia.
    + eapply Forall_impl; [|exact Hp]. intros [i op ip|i] H; exact H.
Qed.

(** The signal of Props/Downsample.v meets the hypotheses. *)
Example alive_case : alive heap1 signal1 /\ s_axes signal1 <> Default.
Proof.
  split; [|discriminate]. intros k Hk. unfold refs, signal1 in Hk. simpl in Hk. simpl. lia.
Qed.
Example downsampling_the_copy_case :
  let g := fun d : data => AMap (nrows d) (ncols d) (fun y x => AMap 2 4 (fun r c => (2 * at_ (at_ d y x) r c)%R)) in
  exists h' o h'' o', call (Intensity g) false heap1 signal1 = Some (h', signal1, Some o)
    /\ call (Downsample 2) true h' o = Some (h'', o', None).
Proof. do 4 eexists. split; reflexivity. Qed.

Definition heap2 : heap :=
  Heap 1 (fun _ => AMap 3 1 (fun _ _ => small))
    (fun _ => Detector.Det 2 4 50 8 0 0 0 70 (Detector.PCArray [3; 1] (repeat (Detector.PC 0.5 0.5 0.5) 3)))
    (fun _ => small) (fun _ => AMap 3 1 (fun y _ => y)).
Example cropping_the_map_case :
  exists h' o h'' o', call (Intensity (fun d => d)) false heap2 signal1 = Some (h', signal1, Some o)
    /\ call (CropMapRows 1 2) true h' o = Some (h'', o', None)
    /\ Detector.nav_shape (Detector.d_pc (v_det (look_at heap2 signal1))) = [3; 1].
Proof. do 4 eexists. split; [reflexivity|]. split; reflexivity. Qed.

Print Assumptions C48_later_changes_do_not_reach_the_original_partial.
Print Assumptions C48_deepcopy_isolates.
Example crop_map_case : exists h' s', call (CropMapRows 1 3) true heap2 signal1 = Some (h', s', None)
  /\ nrows (v_data (look_at heap2 signal1)) = 3 /\ Detector.nav_shape (Detector.d_pc (v_det (look_at heap2 signal1))) = [3; 1].
Proof. do 2 eexists. split; [reflexivity|]. split; reflexivity. Qed.
